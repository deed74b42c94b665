(** BinningProcessSketch: optbinning/binning/distributed/binning_process_sketch.py:219-642, and the parts of OptimalBinningSketch
    it relies on (distributed/binning_sketch.py:459-485, 524-553, 562-645).
    The data sketch of a variable is arbitrary ([sk_ops]); its values are those of Model/BSketch.v, aliasing between the sketches
    of two merged objects is the subject of C34 and not modelled here. Not modelled: timing, logging, type checks of the
    arguments. Variable names are numbers. *)
From Coq Require Import List ZArith Bool Arith QArith.
From Verif Require Import Model.Arr Model.Core Model.Process.
Import ListNotations.
Open Scope Z_scope.

(** Options of one OptimalBinningSketch: those the process sets and, as one code, all the others. *)
Record sk_opts := mkSO { so_cat : bool; so_prebins : Z; so_min_bins : option Z; so_max_bins : option Z;
  so_min_size : option Q; so_max_size : option Q; so_pvalue : option Q; so_all : bool; so_special : list Z; so_digits : option Z;
  so_rest : Z }.
(** an entry of binning_fit_params[name]; set_params overwrites the option *)
Inductive fit_param := FMinBins (v : option Z) | FMaxBins (v : option Z) | FMinSize (v : option Q) | FMaxSize (v : option Q)
  | FPrebins (v : Z) | FRest (v : Z).
Definition set_param (s : sk_opts) (p : fit_param) : sk_opts :=
  let '(mkSO c n a b i x pv al sp d r) := s in
  match p with
  | FMinBins v => mkSO c n v b i x pv al sp d r
  | FMaxBins v => mkSO c n a v i x pv al sp d r
  | FMinSize v => mkSO c n a b v x pv al sp d r
  | FMaxSize v => mkSO c n a b i v pv al sp d r
  | FPrebins v => mkSO c v a b i x pv al sp d r
  | FRest v => mkSO c n a b i x pv al sp d v
  end.

(** variable_names: a list or a numpy array (with its identity) *)
Record nlist := mkN { nl_array : bool; nl_id : nat; nl : list name }.
Record bp_opts := mkBO { bo_names : nlist; bo_cat : list name; bo_prebins : Z; bo_min_bins : option Z; bo_max_bins : option Z;
  bo_min_size : option Q; bo_max_size : option Q; bo_pvalue : option Q; bo_all : bool; bo_special : list Z; bo_digits : option Z;
  bo_criteria : option (list (nat * Z)) (* selection_criteria *); bo_fit : dict (list fit_param) }.

(** 313-338: the options of a variable's sketch. max_bin_size is not handed over. *)
Definition opts_for (o : bp_opts) (v : name) : sk_opts :=
  fold_left set_param (match dget (bo_fit o) v with Some l => l | None => [] end)
    (mkSO (zmem v (bo_cat o)) (bo_prebins o) (bo_min_bins o) (bo_max_bins o) (bo_min_size o) None (bo_pvalue o) (bo_all o)
       (bo_special o) (bo_digits o) 0).

(** The data of a variable's sketch (BSketch or BCatSketch) and what [solve] computes from it (binning_sketch.py:577-645; building
    and analysing the table, binning_process.py:397-437, included). *)
Record sk_ops (D C T : Type) := mkOps { d_new : sk_opts -> D; d_add : D -> C -> res D; d_merge : D -> D -> res D;
  d_solve : sk_opts -> D -> res T }.
Arguments d_new {D C T} _. Arguments d_add {D C T} _. Arguments d_merge {D C T} _. Arguments d_solve {D C T} _.

(** One OptimalBinningSketch: options, _bsketch, _n_add, the results of the last solve *)
Record osk (D T : Type) := mkK { k_opts : sk_opts; k_data : option D; k_nadd : Z; k_table : option T }.
Arguments mkK {D T}. Arguments k_opts {D T}. Arguments k_data {D T}. Arguments k_nadd {D T}. Arguments k_table {D T}.
Definition k_init {D T} (s : sk_opts) : osk D T := mkK s None 0 None.
(** binning_sketch.py:459-485: _bsketch is created before the data are added *)
Definition k_add {D C T} (ops : sk_ops D C T) (k : osk D T) (c : C) : osk D T * res unit :=
  let d := match k_data k with Some d => d | None => d_new ops (k_opts k) end in
  match d_add ops d c with
  | Ok d' => (mkK (k_opts k) (Some d') (k_nadd k + 1) (k_table k), Ok tt)
  | Err e => (mkK (k_opts k) (Some d) (k_nadd k) (k_table k), Err e)
  end.
(** binning_sketch.py:524-553 (same signature). None has no attribute merge / n *)
Definition k_merge {D C T} (ops : sk_ops D C T) (k o : osk D T) : osk D T * res unit :=
  match k_data k, k_data o with
  | Some a, Some b => match d_merge ops a b with
                      | Ok d => (mkK (k_opts k) (Some d) (k_nadd k) (k_table k), Ok tt)
                      | Err e => (k, Err e)
                      end
  | _, _ => (k, Err OtherError)
  end.
(** binning_sketch.py:562-645 *)
Definition k_solve {D C T} (ops : sk_ops D C T) (k : osk D T) : osk D T * res unit :=
  if k_nadd k =? 0 then (k, Err NotFitted) else
  match k_data k with
  | None => (k, Err OtherError)
  | Some d => match d_solve ops (k_opts k) d with
              | Ok t => (mkK (k_opts k) (Some d) (k_nadd k) (Some t), Ok tt)
              | Err e => (k, Err e)
              end
  end.

(** The process: _is_started, _binned_variables, _n_samples, _n_add, _support, _is_solved *)
Record bps (D T : Type) := mkBP { bs_started : bool; bs_vars : dict (osk D T); bs_nsamples : Z; bs_nadd : Z;
  bs_support : list bool; bs_solved : bool }.
Arguments mkBP {D T}. Arguments bs_started {D T}. Arguments bs_vars {D T}. Arguments bs_nsamples {D T}. Arguments bs_nadd {D T}.
Arguments bs_support {D T}. Arguments bs_solved {D T}.
(** 219-275 *)
Definition bp_init {D T} : bps D T := mkBP false [] 0 0 [] false.

(** 294-341 *)
Definition bp_start {D T} (o : bp_opts) (st : bps D T) : bps D T :=
  if bs_started st then st else
  mkBP true (fold_left (fun d v => dset d v (k_init (opts_for o v))) (nl (bo_names o)) (bs_vars st)) 0 (bs_nadd st)
       (bs_support st) (bs_solved st).
(** 349-354: the columns of X in order; an exception leaves the variables added so far *)
Fixpoint add_cols {D C T} (ops : sk_ops D C T) (names : list name) (vars : dict (osk D T)) (cols : list (name * C))
    : dict (osk D T) * res unit :=
  match cols with
  | [] => (vars, Ok tt)
  | (v, c) :: r =>
      if zmem v names then
        match dget vars v with
        | None => (vars, Err OtherError)
        | Some k => let '(k', e) := k_add ops k c in
                    match e with Ok _ => add_cols ops names (dset vars v k') r | Err x => (dset vars v k', Err x) end
        end
      else add_cols ops names vars r
  end.
(** 277-366. [rows]: X.shape[0] *)
Definition bp_add {D C T} (ops : sk_ops D C T) (o : bp_opts) (st : bps D T) (cols : list (name * C)) (rows : Z) : bps D T * res unit :=
  let st := bp_start o st in
  let '(vars, e) := add_cols ops (nl (bo_names o)) (bs_vars st) cols in
  match e with
  | Ok _ => (mkBP true vars (bs_nsamples st + rows) (bs_nadd st + 1) (bs_support st) (bs_solved st), Ok tt)
  | Err x => (mkBP true vars (bs_nsamples st) (bs_nadd st) (bs_support st) (bs_solved st), Err x)
  end.

(** 439-452: get_params() == get_params(). Comparing two different arrays with several elements raises *)
Definition names_eq (a b : nlist) : res bool :=
  if nl_array a || nl_array b then
    if nl_array a && nl_array b && Nat.eqb (nl_id a) (nl_id b) then Ok true
    else if (2 <=? length (nl a))%nat || (2 <=? length (nl b))%nat then Err ValueError
    else Ok (if list_eq_dec Z.eq_dec (nl a) (nl b) then true else false)
  else Ok (if list_eq_dec Z.eq_dec (nl a) (nl b) then true else false).
Definition Q_dec (a b : Q) : {a = b} + {a <> b}.
Proof. decide equality; [apply Pos.eq_dec|apply Z.eq_dec]. Defined.
Definition oQ_dec (a b : option Q) : {a = b} + {a <> b}.
Proof. decide equality; apply Q_dec. Defined.
Definition oZ_dec (a b : option Z) : {a = b} + {a <> b}.
Proof. decide equality; apply Z.eq_dec. Defined.
Definition fit_param_dec (a b : fit_param) : {a = b} + {a <> b}.
Proof. decide equality; solve [apply oZ_dec | apply oQ_dec | apply Z.eq_dec]. Defined.
Definition crit_dec (a b : option (list (nat * Z))) : {a = b} + {a <> b}.
Proof. decide equality. apply list_eq_dec. decide equality; [apply Z.eq_dec|apply Nat.eq_dec]. Defined.
Definition fit_dec (a b : dict (list fit_param)) : {a = b} + {a <> b}.
Proof. apply list_eq_dec. decide equality; [apply list_eq_dec, fit_param_dec|apply Z.eq_dec]. Defined.
(** the same names compared with a fixed identity; all other options *)
Definition others_dec (a b : bp_opts) : {mkBO (bo_names a) (bo_cat b) (bo_prebins b) (bo_min_bins b) (bo_max_bins b) (bo_min_size b)
    (bo_max_size b) (bo_pvalue b) (bo_all b) (bo_special b) (bo_digits b) (bo_criteria b) (bo_fit b) = a} +
  {mkBO (bo_names a) (bo_cat b) (bo_prebins b) (bo_min_bins b) (bo_max_bins b) (bo_min_size b)
    (bo_max_size b) (bo_pvalue b) (bo_all b) (bo_special b) (bo_digits b) (bo_criteria b) (bo_fit b) <> a}.
Proof.
  destruct a as [n1 a1 a2 a3 a4 a5 a6 a7 a8 a9 a10 a11 a12], b as [n2 b1 b2 b3 b4 b5 b6 b7 b8 b9 b10 b11 b12]. cbn.
  destruct (list_eq_dec Z.eq_dec b1 a1), (Z.eq_dec b2 a2), (oZ_dec b3 a3), (oZ_dec b4 a4), (oQ_dec b5 a5), (oQ_dec b6 a6), (oQ_dec b7 a7),
    (bool_dec b8 a8), (list_eq_dec Z.eq_dec b9 a9), (oZ_dec b10 a10), (crit_dec b11 a11), (fit_dec b12 a12);
    try (right; intros H; injection H; intros; contradiction). left. now subst.
Defined.
Definition mergeable (a b : bp_opts) : res bool :=
  if others_dec a b then names_eq (bo_names a) (bo_names b) else Ok false.

(** 431-433 *)
Fixpoint merge_vars {D C T} (ops : sk_ops D C T) (names : list name) (vars other : dict (osk D T)) : dict (osk D T) * res unit :=
  match names with
  | [] => (vars, Ok tt)
  | v :: r =>
      match dget vars v, dget other v with
      | Some k, Some k2 => let '(k', e) := k_merge ops k k2 in
                           match e with Ok _ => merge_vars ops r (dset vars v k') other | Err x => (vars, Err x) end
      | _, _ => (vars, Err OtherError)                                  (* KeyError *)
      end
  end.
(** 420-437 *)
Definition bp_merge {D C T} (ops : sk_ops D C T) (o : bp_opts) (st : bps D T) (o2 : bp_opts) (st2 : bps D T) : bps D T * res unit :=
  match mergeable o o2 with
  | Err x => (st, Err x)
  | Ok false => (st, Err OtherError)
  | Ok true => let '(vars, e) := merge_vars ops (nl (bo_names o)) (bs_vars st) (bs_vars st2) in
               (mkBP (bs_started st) vars (bs_nsamples st) (bs_nadd st) (bs_support st) (bs_solved st), e)
  end.

(** 469-473 *)
Fixpoint solve_vars {D C T} (ops : sk_ops D C T) (names : list name) (vars : dict (osk D T)) : dict (osk D T) * res unit :=
  match names with
  | [] => (vars, Ok tt)
  | v :: r =>
      match dget vars v with
      | Some k => let '(k', e) := k_solve ops k in
                  match e with Ok _ => solve_vars ops r (dset vars v k') | Err x => (dset vars v k', Err x) end
      | None => (vars, Err OtherError)
      end
  end.
(** 454-487; binning_process.py:350-395: without selection criteria all variables are selected; with criteria the attribute
    fixed_variables is read, which this class does not have (the support computed so far is not visible: not solved). *)
Definition bp_solve {D C T} (ops : sk_ops D C T) (o : bp_opts) (st : bps D T) : bps D T * res unit :=
  if bs_nadd st =? 0 then (st, Err OtherError) else                     (* NotDataAddedError *)
  let '(vars, e) := solve_vars ops (nl (bo_names o)) (bs_vars st) in
  match e with
  | Err x => (mkBP (bs_started st) vars (bs_nsamples st) (bs_nadd st) (bs_support st) (bs_solved st), Err x)
  | Ok _ =>
      match bo_criteria o with
      | Some _ => (mkBP (bs_started st) vars (bs_nsamples st) (bs_nadd st) (bs_support st) (bs_solved st), Err OtherError)
      | None => (mkBP (bs_started st) vars (bs_nsamples st) (bs_nadd st) (repeat true (length (nl (bo_names o)))) true, Ok tt)
      end
  end.

(** 489-590. [tr t args]: the transform of a value by a variable with results t; [has v]: v is a column of X; metrics
    "woe" / "event_rate" are [MetNumeric]. The output array holds floats, so a string (metric "bins" of one variable) raises.
    metric_special and metric_missing are overwritten in the loop (567-568), the metric is not (580). *)
Fixpoint transform_loop {D T A X Y} (tr : T -> targs A -> X -> Y) (params : name -> tparams A) (vars : dict (osk D T))
    (cell : name -> X) (selected : list name) (a : targs A) : res (list Y) :=
  match selected with
  | [] => Ok []
  | v :: r =>
      let a' := mkA (ta_metric a) (oget (tp_special (params v)) (ta_special a)) (oget (tp_missing (params v)) (ta_missing a)) in
      let m := oget (tp_metric (params v)) (ta_metric a) in
      match dget vars v with
      | Some (mkK _ _ _ (Some t)) =>
          match m with
          | Some MetBins => Err ValueError
          | _ => rbind (transform_loop tr params vars cell r a')
                   (fun ys => Ok (tr t (mkA m (ta_special a') (ta_missing a')) (cell v) :: ys))
          end
      | _ => Err OtherError
      end
  end.
Definition bp_transform {D T A X Y} (tr : T -> targs A -> X -> Y) (params : option (name -> tparams A)) (o : bp_opts) (st : bps D T)
    (has : name -> bool) (a : targs A) (rows : list (name -> X)) : res (list (list Y)) :=
  if negb (bs_solved st) then Err NotFitted else
  match ta_metric a with
  | Some (MetNumeric _) =>
      let selected := select (bs_support st) (nl (bo_names o)) in
      if negb (any (bs_support st)) then Ok (map (fun _ => []) rows) else
      if forallb has selected then
        fold_right (fun row acc => rbind (transform_loop tr (params_fun params) (bs_vars st) row selected a)
                                     (fun y => rbind acc (fun ys => Ok (y :: ys)))) (Ok []) rows
      else Err ValueError
  | _ => Err ValueError
  end.

(** ** Histories: operations on a new process; a merge takes another process with its own history *)
Inductive hist (C : Type) := HNew | HAdd (h : hist C) (cols : list (name * C)) (rows : Z) | HMerge (h h2 : hist C) | HSolve (h : hist C).
Arguments HNew {C}. Arguments HAdd {C}. Arguments HMerge {C}. Arguments HSolve {C}.
(** the state after a history in which no call raised; all processes with the same options *)
Definition and_then {S} (r : S * res unit) : res S := match snd r with Ok _ => Ok (fst r) | Err e => Err e end.
Fixpoint exec {D C T} (ops : sk_ops D C T) (o : bp_opts) (h : hist C) : res (bps D T) :=
  match h with
  | HNew => Ok bp_init
  | HAdd h cols rows => rbind (exec ops o h) (fun st => and_then (bp_add ops o st cols rows))
  | HMerge h h2 => rbind (exec ops o h) (fun st => rbind (exec ops o h2) (fun st2 => and_then (bp_merge ops o st o st2)))
  | HSolve h => rbind (exec ops o h) (fun st => and_then (bp_solve ops o st))
  end.
