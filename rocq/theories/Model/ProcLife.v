(** BinningProcess as an object: optbinning/binning/binning_process.py:65-1345 (fit, fit_disk, fit_from_dict,
    update_binned_variable, summary, information, get_binned_variable, get_support, transform) with the state the methods read and
    write, including what a call that raises has already written. Not modelled: timing, logging, the types of the arguments
    (TypeError), check_input=True, n_jobs > 1 (C40), the metric arguments of transform (C42), numpy broadcasting of a one-element
    column, the mutation of the table of a binning object by build/analysis (C49). Variable names are numbers. *)
From Coq Require Import List ZArith Bool Arith QArith String Ascii.
From Verif Require Import Model.Arr Model.Core Model.Process.
Import ListNotations.
Open Scope Z_scope.

(** sklearn's type_of_target (1067-1071) *)
Inductive tkind := TBinary | TContinuous | TMulticlass | TUnsupported.
Definition tkind_eqb (a b : tkind) : bool :=
  match a, b with
  | TBinary, TBinary | TContinuous, TContinuous | TMulticlass, TMulticlass | TUnsupported, TUnsupported => true
  | _, _ => false
  end.
(** 58-62: OptimalBinning, ContinuousOptimalBinning, MulticlassOptimalBinning, OptimalPWBinning, ContinuousOptimalPWBinning *)
Inductive bclass := CBin | CCont | CMulti | CPW | CContPW.
Definition bclass_eqb (a b : bclass) : bool :=
  match a, b with
  | CBin, CBin | CCont, CCont | CMulti, CMulti | CPW, CPW | CContPW, CContPW => true
  | _, _ => false
  end.

(** The parameters of a binning object: those a process sets and, as one code, all the others. [v_name]: None is the empty name. *)
Record vopts := mkV { v_name : option name; v_cat : bool; v_prebins : Z; v_prebin_size : Q; v_min_bins : option Z;
  v_max_bins : option Z; v_min_size : option Q; v_max_size : option Q; v_pvalue : option Q; v_all : bool; v_special : list Z;
  v_digits : option Z; v_rest : Z }.
(** an entry of binning_fit_params[name] *)
Inductive fparam := FName (n : option name) | FCat (b : bool) | FPrebins (v : Z) | FPrebinSize (v : Q) | FMinBins (v : option Z)
  | FMaxBins (v : option Z) | FMinSize (v : option Q) | FMaxSize (v : option Q) | FPvalue (v : option Q) | FAll (b : bool)
  | FSpecial (l : list Z) | FDigits (v : option Z) | FRest (v : Z) | FUnknown.
(** sklearn's set_params: ValueError for a parameter the class does not have; MulticlassOptimalBinning has no dtype *)
Definition set_param (c : bclass) (s : vopts) (p : fparam) : res vopts :=
  let '(mkV nm ct pb ps a b i x pv al sp d r) := s in
  match p with
  | FName n => Ok (mkV n ct pb ps a b i x pv al sp d r)
  | FCat v => match c with CMulti => Err ValueError | _ => Ok (mkV nm v pb ps a b i x pv al sp d r) end
  | FPrebins v => Ok (mkV nm ct v ps a b i x pv al sp d r)
  | FPrebinSize v => Ok (mkV nm ct pb v a b i x pv al sp d r)
  | FMinBins v => Ok (mkV nm ct pb ps v b i x pv al sp d r)
  | FMaxBins v => Ok (mkV nm ct pb ps a v i x pv al sp d r)
  | FMinSize v => Ok (mkV nm ct pb ps a b v x pv al sp d r)
  | FMaxSize v => Ok (mkV nm ct pb ps a b i v pv al sp d r)
  | FPvalue v => Ok (mkV nm ct pb ps a b i x v al sp d r)
  | FAll v => Ok (mkV nm ct pb ps a b i x pv v sp d r)
  | FSpecial v => Ok (mkV nm ct pb ps a b i x pv al v d r)
  | FDigits v => Ok (mkV nm ct pb ps a b i x pv al sp v r)
  | FRest v => Ok (mkV nm ct pb ps a b i x pv al sp d v)
  | FUnknown => Err ValueError
  end.
Fixpoint set_params (c : bclass) (s : vopts) (l : list fparam) : res vopts :=
  match l with [] => Ok s | p :: r => rbind (set_param c s p) (fun s' => set_params c s' r) end.

(** 552-583: the parameters of the process. fixed_variables and categorical_variables: None is the empty list. *)
Record popts := mkPO { po_names : list name; po_prebins : Z; po_prebin_size : Q; po_min_bins : option Z; po_max_bins : option Z;
  po_min_size : option Q; po_max_size : option Q; po_pvalue : option Q; po_all : bool; po_crit : option (list (nat * crit));
  po_fixed : list name; po_cat : list name; po_special : list Z; po_digits : option Z; po_fit : dict (list fparam) }.

(** 201-308: the range checks of _check_parameters *)
Definition qlt (a b : Q) : bool := negb (Qle_bool b a).
Definition opt_all {A} (p : A -> bool) (o : option A) : bool := match o with Some a => p a | None => true end.
Definition both {A} (p : A -> A -> bool) (a b : option A) : bool := match a, b with Some x, Some y => p x y | _, _ => true end.
Definition params_ok (o : popts) : bool :=
  (1 <? po_prebins o) && (qlt 0 (po_prebin_size o) && Qle_bool (po_prebin_size o) (1 # 2)) &&
  opt_all (Z.ltb 0) (po_min_bins o) && opt_all (Z.ltb 0) (po_max_bins o) && both Z.leb (po_min_bins o) (po_max_bins o) &&
  opt_all (fun q => qlt 0 q && Qle_bool q (1 # 2)) (po_min_size o) && opt_all (fun q => qlt 0 q && Qle_bool q 1) (po_max_size o) &&
  both Qle_bool (po_min_size o) (po_max_size o) && opt_all (fun q => qlt 0 q && Qle_bool q 1) (po_pvalue o) &&
  opt_all (fun d => (0 <=? d) && (d <=? 8)) (po_digits o).
Definition check_params (o : popts) : res unit := if params_ok o then Ok tt else Err ValueError.

(** A binning object: class, parameters and the result of its last successful fit *)
Record bobj (V : Type) := mkB { b_class : bclass; b_opts : vopts; b_res : option V }.
Arguments mkB {V}. Arguments b_class {V}. Arguments b_opts {V}. Arguments b_res {V}.

(** What the process relies on: type_of_target and len of a target vector; a column read as a target vector; whether a column has
    dtype object; _check_selection_criteria (160-198); fit of a binning object; build, analysis and the metrics of its table
    (405-431) for a target type; its transform. *)
Record world (C Y W V T : Type) := mkW { w_target : Y -> tkind; w_len : Y -> Z; w_as_target : C -> Y; w_object : C -> bool;
  w_crit : tkind -> list (nat * crit) -> res unit;
  w_fit : bclass -> vopts -> C -> Y -> option W -> res V;
  w_stats : tkind -> bclass -> V -> res var_stats;
  w_apply : bclass -> vopts -> V -> C -> res T }.
Arguments w_target {C Y W V T}. Arguments w_len {C Y W V T}. Arguments w_as_target {C Y W V T}. Arguments w_object {C Y W V T}.
Arguments w_crit {C Y W V T}. Arguments w_fit {C Y W V T}. Arguments w_stats {C Y W V T}. Arguments w_apply {C Y W V T}.

(** 585-601 *)
Record pst (V : Type) := mkS { s_fitted : bool; s_target : option tkind; s_samples : Z; s_nvars : nat; s_dtypes : dict bool;
  s_vars : dict (bobj V); s_stats : dict (tkind * var_stats); s_support : option (list bool); s_updated : bool }.
Arguments mkS {V}. Arguments s_fitted {V}. Arguments s_target {V}. Arguments s_samples {V}. Arguments s_nvars {V}.
Arguments s_dtypes {V}. Arguments s_vars {V}. Arguments s_stats {V}. Arguments s_support {V}. Arguments s_updated {V}.
Definition p_new {V} : pst V := mkS false None 0 0 [] [] [] None false.
Definition with_target {V} (k : tkind) (s : pst V) : pst V :=
  mkS (s_fitted s) (Some k) (s_samples s) (s_nvars s) (s_dtypes s) (s_vars s) (s_stats s) (s_support s) (s_updated s).
Definition with_shape {V} (n : Z) (m : nat) (s : pst V) : pst V :=
  mkS (s_fitted s) (s_target s) n m (s_dtypes s) (s_vars s) (s_stats s) (s_support s) (s_updated s).
Definition with_vars {V} (d : dict bool) (v : dict (bobj V)) (s : pst V) : pst V :=
  mkS (s_fitted s) (s_target s) (s_samples s) (s_nvars s) d v (s_stats s) (s_support s) (s_updated s).
Definition with_stats {V} (d : dict (tkind * var_stats)) (s : pst V) : pst V :=
  mkS (s_fitted s) (s_target s) (s_samples s) (s_nvars s) (s_dtypes s) (s_vars s) d (s_support s) (s_updated s).
Definition with_support {V} (l : list bool) (s : pst V) : pst V :=
  mkS (s_fitted s) (s_target s) (s_samples s) (s_nvars s) (s_dtypes s) (s_vars s) (s_stats s) (Some l) (s_updated s).
Definition with_updated {V} (b : bool) (s : pst V) : pst V :=
  mkS (s_fitted s) (s_target s) (s_samples s) (s_nvars s) (s_dtypes s) (s_vars s) (s_stats s) (s_support s) b.
Definition with_fitted {V} (s : pst V) : pst V :=
  mkS true (s_target s) (s_samples s) (s_nvars s) (s_dtypes s) (s_vars s) (s_stats s) (s_support s) (s_updated s).

(** 89-117: the class the process uses for a target type *)
Definition class_for (k : tkind) : bclass := match k with TBinary => CBin | TContinuous => CCont | _ => CMulti end.
(** 75-128: _fit_variable. max_bin_size is not handed over: every object has its default None. *)
Definition fit_variable {C Y W V T} (w : world C Y W V T) (o : popts) (k : tkind) (n : name) (x : C) (y : Y) (sw : option W)
    : res (bool * bobj V) :=
  let cat := w_object w x || zmem n (po_cat o) in
  let c := class_for k in
  if bclass_eqb c CMulti && cat then Err ValueError else
  rbind (set_params c (mkV (Some n) cat (po_prebins o) (po_prebin_size o) (po_min_bins o) (po_max_bins o) (po_min_size o) None
                         (po_pvalue o) (po_all o) (po_special o) (po_digits o) 0)
           (match dget (po_fit o) n with Some l => l | None => [] end)) (fun s =>
  rbind (w_fit w c s x y (match c with CBin => sw | _ => None end)) (fun v => Ok (cat, mkB c s (Some v)))).
(** 1109-1136 / 1238-1248: one variable after the other; a variable that raises leaves the earlier ones replaced *)
Fixpoint fit_loop {C Y W V T} (w : world C Y W V T) (o : popts) (k : tkind) (y : Y) (sw : option W) (cols : list (name * res C))
    (d : dict bool) (v : dict (bobj V)) : (dict bool * dict (bobj V)) * res unit :=
  match cols with
  | [] => ((d, v), Ok tt)
  | (n, c) :: r =>
      match rbind c (fun x => fit_variable w o k n x y sw) with
      | Err e => ((d, v), Err e)
      | Ok (t, b) => fit_loop w o k y sw r (dset d n t) (dset v n b)
      end
  end.

(** 399-431, one variable: build() of an object that is not fitted raises NotFittedError; ContinuousOptimalPWBinning is not an
    OptimalPWBinning and has no attribute dtype (403); no metrics for another target type (432) *)
Definition obj_stats {C Y W V T} (w : world C Y W V T) (k : tkind) (v : dict (bobj V)) (n : name) : res var_stats :=
  match dget v n with
  | None => Err OtherError
  | Some b =>
      match b_res b with
      | None => Err NotFitted
      | Some r => if bclass_eqb (b_class b) CContPW then Err OtherError
                  else if tkind_eqb k TUnsupported then Err OtherError else w_stats w k (b_class b) r
      end
  end.
(** 398-434 *)
Fixpoint stats_loop {C Y W V T} (w : world C Y W V T) (k : tkind) (v : dict (bobj V)) (names : list name)
    (d : dict (tkind * var_stats)) : dict (tkind * var_stats) * res unit :=
  match names with
  | [] => (d, Ok tt)
  | n :: r => match obj_stats w k v n with Err e => (d, Err e) | Ok s => stats_loop w k v r (dset d n (k, s)) end
  end.
(** 392-395: the support is changed in place *)
Fixpoint fix_loop (names fixed : list name) (s : list bool) : list bool * res unit :=
  match fixed with
  | [] => (s, Ok tt)
  | n :: r => match index_of names n with None => (s, Err ValueError) | Some i => fix_loop names r (set_true s i) end
  end.
(** 350-395: [n] is _n_variables *)
Definition select (argsort : list Z -> list nat) (o : popts) (n : nat) (d : dict (tkind * var_stats)) : list bool * res unit :=
  match po_crit o with
  | None => (repeat true n, Ok tt)
  | Some cs =>
      if Nat.eqb (List.length d) n then
        fix_loop (po_names o) (po_fixed o)
          (support_criteria argsort n (map (fun mc => (map (fun kv => snd (snd kv) (fst mc)) d, snd mc)) cs))
      else (repeat true n, Err ValueError)
  end.
(** 397-436: _binning_selection_criteria *)
Definition selection {C Y W V T} (w : world C Y W V T) (argsort : list Z -> list nat) (o : popts) (s : pst V) : pst V * res unit :=
  match s_target s with
  | None => (s, Err OtherError)
  | Some k =>
      let '(d, r) := stats_loop w k (s_vars s) (po_names o) (s_stats s) in
      match r with
      | Err e => (with_stats d s, Err e)
      | Ok _ => let '(sup, r') := select argsort o (s_nvars s) d in (with_support sup (with_stats d s), r')
      end
  end.

(** 1171-1186: statistics, selection, and only then fitted *)
Definition finish {C Y W V T} (w : world C Y W V T) (argsort : list Z -> list nat) (o : popts) (r : pst V * res unit)
    : pst V * res unit :=
  match snd r with
  | Err e => (fst r, Err e)
  | Ok _ => let '(s, q) := selection w argsort o (fst r) in match q with Err e => (s, Err e) | Ok _ => (with_fitted s, Ok tt) end
  end.
Definition fit_vars {C Y W V T} (w : world C Y W V T) (o : popts) (k : tkind) (y : Y) (sw : option W) (cols : list (name * res C))
    (s : pst V) : pst V * res unit :=
  let '((d, v), r) := fit_loop w o k y sw cols (s_dtypes s) (s_vars s) in (with_vars d v s, r).

(** X: an array or a data frame (its labels are distinct) *)
Inductive xdata (C : Type) := XArray (rows : Z) (cols : list C) | XFrame (rows : Z) (cols : dict C).
Arguments XArray {C}. Arguments XFrame {C}.
Definition x_rows {C} (X : xdata C) : Z := match X with XArray n _ => n | XFrame n _ => n end.
Definition x_width {C} (X : xdata C) : nat := match X with XArray _ l => List.length l | XFrame _ l => List.length l end.
(** X[:, i] / X[name] (KeyError) *)
Definition x_column {C} (X : xdata C) (i : nat) (n : name) : res C :=
  match X with
  | XArray _ l => match nth_error l i with Some c => Ok c | None => Err IndexError end
  | XFrame _ l => match dget l n with Some c => Ok c | None => Err OtherError end
  end.
Definition x_columns {C} (X : xdata C) (names : list name) : list (name * res C) :=
  map2 (fun i n => (n, x_column X i n)) (seq 0 (List.length names)) names.
Definition crit_check {C Y W V T} (w : world C Y W V T) (o : popts) (k : tkind) : res unit :=
  match po_crit o with Some cs => w_crit w k cs | None => Ok tt end.
(** 1053-1186: fit(X, y, sample_weight) *)
Definition p_fit {C Y W V T} (w : world C Y W V T) (argsort : list Z -> list nat) (o : popts) (s : pst V) (X : xdata C) (y : Y)
    (sw : option W) : pst V * res unit :=
  match check_params o with
  | Err e => (s, Err e)
  | Ok _ =>
      let k := w_target w y in
      let s1 := with_target k s in
      if tkind_eqb k TUnsupported then (s1, Err ValueError) else
      if match sw with Some _ => negb (tkind_eqb k TBinary) | None => false end then (s1, Err ValueError) else
      match crit_check w o k with
      | Err e => (s1, Err e)
      | Ok _ =>
          let s2 := with_shape (x_rows X) (x_width X) s1 in
          if Nat.eqb (x_width X) (List.length (po_names o))
          then finish w argsort o (fit_vars w o k y sw (x_columns X (po_names o)) s2)
          else (s2, Err ValueError)
      end
  end.

(** str.split(".") *)
Fixpoint split_dots (s : string) : list string :=
  match s with
  | EmptyString => [EmptyString]
  | String a r =>
      if Ascii.eqb a "."%char then EmptyString :: split_dots r
      else match split_dots r with [] => [String a EmptyString] | t :: l => String a t :: l end
  end.
(** 1198-1203: input_path.split(".")[1] *)
Definition path_check (path : string) : res unit :=
  match nth_error (split_dots path) 1 with
  | None => Err IndexError
  | Some e => if String.eqb e "csv"%string || String.eqb e "parquet"%string then Ok tt else Err ValueError
  end.
(** 65-72: usecols=[column] (ValueError if there is no such column) *)
Definition read_column {C} (file : dict C) (n : name) : res C :=
  match dget file n with Some c => Ok c | None => Err ValueError end.
(** 1188-1265: fit_disk(input_path, target) *)
Definition p_fit_disk {C Y W V T} (w : world C Y W V T) (argsort : list Z -> list nat) (o : popts) (s : pst V) (path : string)
    (file : dict C) (target : name) : pst V * res unit :=
  match check_params o with
  | Err e => (s, Err e)
  | Ok _ =>
  match rbind (path_check path) (fun _ => read_column file target) with
  | Err e => (s, Err e)
  | Ok c =>
      let y := w_as_target w c in
      let k := w_target w y in
      let s1 := with_target k s in
      if tkind_eqb k TUnsupported then (s1, Err ValueError) else
      match crit_check w o k with
      | Err e => (s1, Err e)
      | Ok _ =>
          if forallb (fun n => zmem n (po_names o)) (po_fixed o)
          then finish w argsort o (fit_vars w o k y None (map (fun n => (n, read_column file n)) (po_names o))
                                     (with_shape (w_len w y) (List.length (po_names o)) s1))
          else (s1, Err ValueError)
      end
  end end.

(** 1283-1310: the objects one after the other; [seen]: the class of the earlier ones *)
Fixpoint check_objects {V} (seen : option bclass) (l : dict (bobj V)) : res (option bclass) :=
  match l with
  | [] => Ok seen
  | (n, b) :: r =>
      match b_class b with
      | CPW | CContPW => Err TypeError
      | c =>
          if match seen with Some c0 => negb (bclass_eqb c0 c) | None => false end then Err TypeError else
          match b_res b with
          | None => Err NotFitted
          | Some _ => if match v_name (b_opts b) with Some m => negb (m =? n) | None => false end then Err ValueError
                      else check_objects (Some c) r
          end
      end
  end.
Definition kind_of (c : bclass) : tkind := match c with CBin => TBinary | CCont => TContinuous | _ => TMulticlass end.
(** optb.dtype; MulticlassOptimalBinning: "numerical" *)
Definition obj_cat {V} (b : bobj V) : bool := match b_class b with CBin | CCont => v_cat (b_opts b) | _ => false end.
(** 1267-1345: fit_from_dict(dict_optb) *)
Definition p_fit_dict {C Y W V T} (w : world C Y W V T) (argsort : list Z -> list nat) (o : popts) (s : pst V) (l : dict (bobj V))
    : pst V * res unit :=
  match check_params o with
  | Err e => (s, Err e)
  | Ok _ =>
  if negb (forallb (fun n => zmem n (po_names o)) (map fst l) && forallb (fun n => zmem n (map fst l)) (po_names o))
  then (s, Err ValueError) else
  match check_objects None l with
  | Err e => (s, Err e)
  | Ok None => (s, Err OtherError)
  | Ok (Some c) =>
      let k := kind_of c in
      let s1 := with_target k s in
      match crit_check w o k with
      | Err e => (s1, Err e)
      | Ok _ =>
          let s2 := with_shape 0 (List.length (po_names o)) s1 in
          finish w argsort o (with_vars (fold_left (fun d kb => dset d (fst kb) (obj_cat (snd kb))) l (s_dtypes s2))
                                        (fold_left (fun d kb => dset d (fst kb) (snd kb)) l (s_vars s2)) s2, Ok tt)
      end
  end end.

(** 42-56: the metrics of a target type: 0 iv, 1 js, 2 gini, 3 quality_score, 4 woe *)
Definition metrics_of (k : tkind) : list nat :=
  match k with TBinary => [0; 1; 2; 3] | TMulticlass => [1; 3] | TContinuous => [4; 3] | TUnsupported => [] end%nat.
Definition has_metric (k : tkind) (m : nat) : bool := existsb (Nat.eqb m) (metrics_of k).
(** 931-939: the rows name, statistics, selected. KeyError if the target type is unknown or no variable has the metric. *)
Definition summary_rows {V} (s : pst V) : res (list (name * (tkind * var_stats) * bool)) :=
  match s_support s, s_target s with
  | Some sup, Some k =>
      if negb (Nat.eqb (List.length sup) (List.length (s_stats s))) then Err ValueError else
      if tkind_eqb k TUnsupported then Err OtherError else
      if forallb (fun m => existsb (fun kv => has_metric (fst (snd kv)) m) (s_stats s)) (metrics_of k)
      then Ok (map2 (fun kv b => (fst kv, snd kv, b)) (s_stats s) sup) else Err OtherError
  | _, _ => Err OtherError
  end.
(** 916-939 *)
Definition p_summary {C Y W V T} (w : world C Y W V T) (argsort : list Z -> list nat) (o : popts) (s : pst V)
    : pst V * res (list (name * (tkind * var_stats) * bool)) :=
  if negb (s_fitted s) then (s, Err NotFitted) else
  if s_updated s then
    let '(s', r) := selection w argsort o s in
    match r with Err e => (s', Err e) | Ok _ => let s2 := with_updated false s' in (s2, summary_rows s2) end
  else (s, summary_rows s).
(** 898-914: samples, variables, numerical, categorical, selected *)
Definition p_information {V} (s : pst V) : res (Z * nat * nat * Z * nat) :=
  if negb (s_fitted s) then Err NotFitted else
  let num := List.length (filter (fun kv => negb (snd kv)) (s_dtypes s)) in
  match s_support s with
  | None => Err OtherError
  | Some sup => Ok (s_samples s, s_nvars s, num, Z.of_nat (s_nvars s) - Z.of_nat num, List.length (filter (fun b => b) sup))
  end.
(** 941-958 *)
Definition p_get {V} (o : popts) (s : pst V) (n : name) : res (bobj V) :=
  if negb (s_fitted s) then Err NotFitted else
  if zmem n (po_names o) then match dget (s_vars s) n with Some b => Ok b | None => Err OtherError end else Err ValueError.
(** 960-1013. Whether the object is fitted is not checked. *)
Definition accepts (k : option tkind) (c : bclass) : bool :=
  match k with
  | Some TBinary => bclass_eqb c CBin || bclass_eqb c CPW
  | Some TContinuous => bclass_eqb c CCont || bclass_eqb c CContPW
  | Some TMulticlass => bclass_eqb c CMulti
  | _ => true
  end.
Definition oname_eqb (a b : option name) : bool := match a, b with Some x, Some y => x =? y | None, None => true | _, _ => false end.
Definition p_update {V} (o : popts) (s : pst V) (n : name) (b : bobj V) : pst V * res unit :=
  if negb (s_fitted s) then (s, Err NotFitted) else
  if negb (zmem n (po_names o)) then (s, Err ValueError) else
  if negb (accepts (s_target s) (b_class b)) then (s, Err TypeError) else
  match dget (s_vars s) n with
  | None => (s, Err OtherError)
  | Some old =>
      if match v_name (b_opts old) with Some m => negb (oname_eqb (Some m) (v_name (b_opts b))) | None => false end
      then (s, Err ValueError) else
      if match v_name (b_opts b) with Some m => negb (n =? m) | None => false end then (s, Err ValueError) else
      (with_updated true (with_vars (s_dtypes s) (dset (s_vars s) n b) s), Ok tt)
  end.
(** 1015-1051 *)
Inductive support_answer := SMask (l : list bool) | SIndices (l : list nat) | SNames (l : list name).
Fixpoint mask_names (names : list name) (m : list bool) : list name :=
  match names, m with n :: r, b :: t => if b then n :: mask_names r t else mask_names r t | _, _ => [] end.
Definition p_support {V} (o : popts) (s : pst V) (indices names : bool) : res support_answer :=
  if negb (s_fitted s) then Err NotFitted else
  if indices && names then Err ValueError else
  match s_support s with
  | None => Err OtherError
  | Some m => if indices then Ok (SIndices (where_true m))
              else if names then
                if Nat.eqb (List.length m) (List.length (po_names o)) then Ok (SNames (mask_names (po_names o) m)) else Err IndexError
              else Ok (SMask m)
  end.
(** 1346-1454, without the metric arguments *)
Definition transform_one {C Y W V T} (w : world C Y W V T) (o : popts) (s : pst V) (X : xdata C) (i : nat) : res (name * T) :=
  match nth_error (po_names o) i with
  | None => Err IndexError
  | Some n =>
      match dget (s_vars s) n with
      | None => Err OtherError
      | Some b =>
          rbind (x_column X i n) (fun x =>
          match b_res b with None => Err NotFitted | Some v => rbind (w_apply w (b_class b) (b_opts b) v x) (fun t => Ok (n, t)) end)
      end
  end.
Fixpoint transform_all {C Y W V T} (w : world C Y W V T) (o : popts) (s : pst V) (X : xdata C) (l : list nat) : res (list (name * T)) :=
  match l with
  | [] => Ok []
  | i :: r => rbind (transform_one w o s X i) (fun t => rbind (transform_all w o s X r) (fun ts => Ok (t :: ts)))
  end.
Definition p_transform {C Y W V T} (w : world C Y W V T) (o : popts) (s : pst V) (X : xdata C) : res (list (name * T)) :=
  if negb (s_fitted s) then Err NotFitted else
  match s_support s with
  | None => Err OtherError
  | Some m =>
      if negb (existsb (fun b => b) m) then Ok [] else
      match X with
      | XArray _ l => if Nat.eqb (List.length m) (List.length l) then transform_all w o s X (where_true m) else Err ValueError
      | XFrame _ l =>
          if negb (Nat.eqb (List.length m) (List.length (po_names o))) then Err IndexError else
          if forallb (fun n => zmem n (map fst l)) (mask_names (po_names o) m) then transform_all w o s X (where_true m)
          else Err ValueError
      end
  end.

(** The calls on a process, and their answers *)
Inductive call (C Y W V : Type) :=
| KFit (X : xdata C) (y : Y) (sw : option W) | KFitDisk (path : string) (file : dict C) (target : name)
| KFitDict (l : dict (bobj V)) | KUpdate (n : name) (b : bobj V) | KSummary | KInformation | KGet (n : name)
| KSupport (indices names : bool) | KTransform (X : xdata C) | KSetParams (o : popts).
Arguments KFit {C Y W V}. Arguments KFitDisk {C Y W V}. Arguments KFitDict {C Y W V}. Arguments KUpdate {C Y W V}.
Arguments KSummary {C Y W V}. Arguments KInformation {C Y W V}. Arguments KGet {C Y W V}. Arguments KSupport {C Y W V}.
Arguments KTransform {C Y W V}. Arguments KSetParams {C Y W V}.
Inductive answer (V T : Type) :=
| ADone (r : res unit) | ASummary (r : res (list (name * (tkind * var_stats) * bool))) | AInfo (r : res (Z * nat * nat * Z * nat))
| AObject (r : res (bobj V)) | ASupport (r : res support_answer) | AData (r : res (list (name * T))).
Arguments ADone {V T}. Arguments ASummary {V T}. Arguments AInfo {V T}. Arguments AObject {V T}. Arguments ASupport {V T}.
Arguments AData {V T}.
Definition step {C Y W V T} (w : world C Y W V T) (argsort : list Z -> list nat) (os : popts * pst V) (c : call C Y W V)
    : (popts * pst V) * answer V T :=
  let '(o, s) := os in
  match c with
  | KFit X y sw => let '(s', r) := p_fit w argsort o s X y sw in ((o, s'), ADone r)
  | KFitDisk p f t => let '(s', r) := p_fit_disk w argsort o s p f t in ((o, s'), ADone r)
  | KFitDict l => let '(s', r) := p_fit_dict w argsort o s l in ((o, s'), ADone r)
  | KUpdate n b => let '(s', r) := p_update o s n b in ((o, s'), ADone r)
  | KSummary => let '(s', r) := p_summary w argsort o s in ((o, s'), ASummary r)
  | KInformation => ((o, s), AInfo (p_information s))
  | KGet n => ((o, s), AObject (p_get o s n))
  | KSupport i n => ((o, s), ASupport (p_support o s i n))
  | KTransform X => ((o, s), AData (p_transform w o s X))
  | KSetParams o' => ((o', s), ADone (Ok tt))
  end.
Fixpoint run {C Y W V T} (w : world C Y W V T) (argsort : list Z -> list nat) (os : popts * pst V) (h : list (call C Y W V))
    : (popts * pst V) * list (answer V T) :=
  match h with
  | [] => (os, [])
  | c :: r => let '(os1, a) := step w argsort os c in let '(os2, l) := run w argsort os1 r in (os2, a :: l)
  end.
