(** Binning process: optbinning/binning/binning_process.py. Variable names are numbers; a fitted variable, its statistics
    and the per-value transform are arbitrary (pure) functions. *)
From Coq Require Import List ZArith Bool.
From Verif Require Import Model.Arr Model.Core.
Import ListNotations.
Open Scope Z_scope.

Definition name := Z.

(** ** Python dicts: insertion-ordered; assigning an existing key keeps its position *)
Definition dict (V : Type) := list (name * V).
Fixpoint dset {V} (d : dict V) (k : name) (v : V) : dict V :=
  match d with
  | [] => [(k, v)]
  | (k', v') :: r => if k' =? k then (k, v) :: r else (k', v') :: dset r k v
  end.
Fixpoint dget {V} (d : dict V) (k : name) : option V :=
  match d with [] => None | (k', v) :: r => if k' =? k then Some v else dget r k end.
Definition dupdate {V} (d e : dict V) : dict V := fold_left (fun a kv => dset a (fst kv) (snd kv)) e d.

(** ** fit: 1053-1186 *)

(** The data: a DataFrame (columns by name) or an array (columns by position). *)
Inductive frame (C : Type) := ByName (col : name -> C) | ByPos (col : nat -> C).
Arguments ByName {C} _. Arguments ByPos {C} _.
(** 1109-1119 / 1121-1129, also 130-139: the column of the i-th variable *)
Definition column {C} (X : frame C) (i : nat) (n : name) : C :=
  match X with ByName f => f n | ByPos f => f i end.

(** 1103-1132: n_jobs = 1. [fitv name column]: [_fit_variable] (72-120), here dtype and object in one value. *)
Fixpoint fit_seq {C V} (fitv : name -> C -> V) (X : frame C) (i : nat) (names : list name) (d : dict V) : dict V :=
  match names with
  | [] => d
  | n :: r => fit_seq fitv X (S i) r (dset d n (fitv n (column X i n)))
  end.

(** np.array_split(range(len), n): the first len mod n blocks have one more element. *)
Fixpoint split_sizes (l : list nat) (sizes : list nat) : list (list nat) :=
  match sizes with [] => [] | s :: r => firstn s l :: split_sizes (skipn s l) r end.
Definition array_split (len n : nat) : list (list nat) :=
  let q := Nat.div len n in
  let e := Nat.modulo len n in
  split_sizes (seq 0 len) (repeat (S q) e ++ repeat q (n - e)).

(** 123-153: one block. The block sees the columns X[:, id_block] (or X[names[id_block]]). *)
Definition fit_block {C V} (fitv : name -> C -> V) (X : frame C) (names : list name) (ids : list nat) : dict V :=
  fold_left (fun d i => let n := nth i names 0 in dset d n (fitv n (column X i n))) ids [].
(** 1134-1168: the blocks are fitted in any order (threads); joblib returns their results in order, and the dicts are
    updated block after block. *)
Definition fit_par {C V} (fitv : name -> C -> V) (X : frame C) (names : list name) (n_jobs : nat) (d : dict V) : dict V :=
  fold_left dupdate (map (fit_block fitv X names) (array_split (length names) n_jobs)) d.

(** The same with the blocks run by threads, one variable at a time, in the order given by a schedule (a list of block
    numbers). Each thread works on its own dict (127-128), so a step changes only its block. *)
Definition block_step {C V} (fitv : name -> C -> V) (X : frame C) (names : list name)
    (st : list nat * dict V) : list nat * dict V :=
  match fst st with
  | [] => st
  | i :: r => let n := nth i names 0 in (r, dset (snd st) n (fitv n (column X i n)))
  end.
Definition set_at {B} (l : list B) (k : nat) (f : B -> B) : list B :=
  map2 (fun i x => if Nat.eqb i k then f x else x) (seq 0 (length l)) l.
Definition run_schedule {C V} (fitv : name -> C -> V) (X : frame C) (names : list name) (n_jobs : nat) (sched : list nat)
    : list (list nat * dict V) :=
  fold_left (fun sts b => set_at sts b (block_step fitv X names)) sched
    (map (fun ids => (ids, [])) (array_split (length names) n_jobs)).
(** The result is available when every block is finished. *)
Definition fit_threads {C V} (fitv : name -> C -> V) (X : frame C) (names : list name) (n_jobs : nat) (sched : list nat)
    (d : dict V) : option (dict V) :=
  let sts := run_schedule fitv X names n_jobs sched in
  if forallb (fun st => match fst st with [] => true | _ => false end) sts
  then Some (fold_left dupdate (map snd sts) d) else None.

(** ** Variable selection: 350-395 *)

(** top: an integer, or a fraction num/den in (0, 1) (170-179) *)
Inductive topn := TopInt (n : nat) | TopFrac (num den : nat).
(** the entries of selection_criteria[metric]; metric values are numbers on a common scale (integers) *)
Record crit := mkC { c_min : option Z; c_max : option Z; c_strategy : option bool (** true: highest *);
                     c_top : option topn }.
(** 377-380: int(np.ceil(n_valid * top)) *)
Definition top_number (t : topn) (n_valid : nat) : nat :=
  match t with TopInt n => n | TopFrac a b => Nat.div (n_valid * a + b - 1) b end.
Definition where_true (l : list bool) : list nat := filter (fun i => nth i l false) (seq 0 (length l)).
(** 364-390, one metric. [argsort]: np.argsort, any order of ties. *)
Definition crit_step (argsort : list Z -> list nat) (vals : list Z) (c : crit) (sup : list bool) : list bool :=
  let sup := match c_min c with Some m => map2 andb sup (map (fun v => m <=? v) vals) | None => sup end in
  let sup := match c_max c with Some m => map2 andb sup (map (fun v => v <=? m) vals) | None => sup end in
  match c_strategy c, c_top c with
  | Some highest, Some top =>
      let indices_valid := where_true sup in
      let mv := map (fun i => nth i vals 0) indices_valid in
      let n_valid := length mv in
      let n_selected := Nat.min n_valid (top_number top n_valid) in
      let mask := firstn n_selected (if highest then argsort (map Z.opp mv) else argsort mv) in
      let chosen := map (fun j => nth j indices_valid 0%nat) mask in
      map (fun i => nth i sup false && existsb (Nat.eqb i) chosen) (seq 0 (length sup))
  | _, _ => sup
  end.
(** 362-390: the metrics in their default order; [crits]: the column of values and the criteria of each metric that has
    criteria. *)
Definition support_criteria (argsort : list Z -> list nat) (n : nat) (crits : list (list Z * crit)) : list bool :=
  fold_left (fun s vc => crit_step argsort (fst vc) (snd vc) s) crits (repeat true n).
(** list.index *)
Fixpoint index_of (names : list name) (k : name) : option nat :=
  match names with [] => None | n :: r => if n =? k then Some 0%nat else option_map S (index_of r k) end.
Definition set_true (l : list bool) (i : nat) : list bool :=
  map (fun j => Nat.eqb i j || nth j l false) (seq 0 (length l)).
(** 392-395 *)
Fixpoint fix_vars (names : list name) (fixed : list name) (s : list bool) : res (list bool) :=
  match fixed with
  | [] => Ok s
  | k :: r => match index_of names k with Some i => fix_vars names r (set_true s i) | None => Err ValueError end
  end.

(** Statistics of a variable: one value per default metric. 397-437: the dict of statistics is updated in the order of
    variable_names; 360: its values are read in the dict's order. [stats0]: the dict before the call. *)
Definition var_stats := nat -> Z.
Definition update_stats {V} (stat : V -> var_stats) (names : list name) (fitted : dict V) (dflt : V)
    (stats0 : dict var_stats) : dict var_stats :=
  fold_left (fun d n => dset d n (stat (match dget fitted n with Some v => v | None => dflt end))) names stats0.
(** 350-395. [crits]: metric number and criteria, in default order. A metric column whose length differs from
    [_n_variables] cannot be combined with the support (numpy: operands could not be broadcast). *)
Definition select_support (argsort : list Z -> list nat) (names : list name) (fixed : list name)
    (crits : option (list (nat * crit))) (stats : dict var_stats) : res (list bool) :=
  match crits with
  | None => Ok (repeat true (length names))
  | Some cs =>
      if Nat.eqb (length stats) (length names) then
        fix_vars names fixed
          (support_criteria argsort (length names)
             (map (fun mc => (map (fun kv => snd kv (fst mc)) stats, snd mc)) cs))
      else Err ValueError
  end.

(** ** Updating a fitted process: 916-938, 960-1013, 1015-1051 *)
Record process (V : Type) := mkP { p_fitted : dict V; p_stats : dict var_stats; p_support : list bool; p_updated : bool }.
Arguments mkP {V} _ _ _ _. Arguments p_fitted {V} _. Arguments p_stats {V} _. Arguments p_support {V} _. Arguments p_updated {V} _.
(** 397-437 *)
Definition selection {V} (argsort : list Z -> list nat) (stat : V -> var_stats) (dflt : V) (names fixed : list name)
    (crits : option (list (nat * crit))) (fitted : dict V) (stats0 : dict var_stats) (updated : bool) : res (process V) :=
  let stats := update_stats stat names fitted dflt stats0 in
  rbind (select_support argsort names fixed crits stats) (fun s => Ok (mkP fitted stats s updated)).
(** 1012-1013 (type and name checks omitted) *)
Definition update_binned {V} (p : process V) (n : name) (v : V) : process V :=
  mkP (dset (p_fitted p) n v) (p_stats p) (p_support p) true.
(** 925-929: summary() recomputes statistics and support if an update is pending *)
Definition summary {V} (argsort : list Z -> list nat) (stat : V -> var_stats) (dflt : V) (names fixed : list name)
    (crits : option (list (nat * crit))) (p : process V) : res (process V) :=
  if p_updated p then selection argsort stat dflt names fixed crits (p_fitted p) (p_stats p) false else Ok p.

(** ** transform: 1346-1454 *)
Inductive met := MetIndices | MetBins | MetNumeric (m : Z).
Definition met_eqb (a b : met) : bool :=
  match a, b with
  | MetIndices, MetIndices => true | MetBins, MetBins => true | MetNumeric x, MetNumeric y => x =? y | _, _ => false end.
Definition omet_eqb (a b : option met) : bool :=
  match a, b with Some x, Some y => met_eqb x y | None, None => true | _, _ => false end.
(** binning_transform_params[name]: present keys. A: values of metric_special / metric_missing. *)
Record tparams (A : Type) := mkT { tp_metric : option (option met); tp_special : option A; tp_missing : option A }.
Arguments mkT {A} _ _ _. Arguments tp_metric {A} _. Arguments tp_special {A} _. Arguments tp_missing {A} _.
Definition no_params {A} : tparams A := mkT None None None.
(** the call's metric, metric_special, metric_missing *)
Record targs (A : Type) := mkA { ta_metric : option met; ta_special : A; ta_missing : A }.
Arguments mkA {A} _ _ _. Arguments ta_metric {A} _. Arguments ta_special {A} _. Arguments ta_missing {A} _.
Definition oget {B} (o : option B) (d : B) : B := match o with Some b => b | None => d end.
(** 1428-1434 *)
Definition apply_params {A} (p : tparams A) (s : targs A) : targs A :=
  mkA (oget (tp_metric p) (ta_metric s)) (oget (tp_special p) (ta_special s)) (oget (tp_missing p) (ta_missing s)).

(** 1382-1402: base_metric *)
Definition base_metric {A} (params : option (name -> tparams A)) (selected : list name) (metric : option met) : res (option met) :=
  match params with
  | None => Ok metric
  | Some ps =>
      let ms := match metric with Some m => [Some m] | None => [] end
                ++ map (fun n => oget (tp_metric (ps n)) metric) selected in
      match ms with
      | [] => Err OtherError
      | m :: r => if forallb (omet_eqb m) r then Ok m
                  else if existsb (omet_eqb (Some MetBins)) ms then Err ValueError else Ok metric
      end
  end.
(** 1404-1411, 1448: the output array is an integer array for base metric "indices" *)
Definition store {Y} (to_int : Y -> Y) (base : option met) (y : Y) : Y :=
  match base with Some MetIndices => to_int y | _ => y end.
(** 1413-1448 / 1530-1555: the loop over the selected variables. The variables metric, metric_missing and metric_special
    are overwritten; the loop returns their last values. [tr]: the transform of one value by the fitted variable. *)
Fixpoint transform_vars {A X Y} (tr : name -> targs A -> X -> Y) (st : Y -> Y) (params : name -> tparams A) (cell : name -> X)
    (selected : list name) (s : targs A) : list Y * targs A :=
  match selected with
  | [] => ([], s)
  | n :: r => let s' := apply_params (params n) s in
              let '(ys, s'') := transform_vars tr st params cell r s' in (st (tr n s' (cell n)) :: ys, s'')
  end.
Definition params_fun {A} (params : option (name -> tparams A)) : name -> tparams A :=
  match params with Some p => p | None => fun _ => no_params end.
(** A row is a function from names to values. transform(X): all rows see the same column-wise loop. *)
Definition transform_rows {A X Y} (tr : name -> targs A -> X -> Y) (st : Y -> Y) (params : name -> tparams A)
    (selected : list name) (s : targs A) (rows : list (name -> X)) : list (list Y) :=
  map (fun r => fst (transform_vars tr st params r selected s)) rows.
Definition transform {A X Y} (tr : name -> targs A -> X -> Y) (to_int : Y -> Y) (params : option (name -> tparams A))
    (selected : list name) (a : targs A) (rows : list (name -> X)) : res (list (list Y)) :=
  rbind (base_metric params selected (ta_metric a)) (fun b =>
  Ok (transform_rows tr (store to_int b) (params_fun params) selected a rows)).
(** 1456-1557: chunk after chunk, the overwritten variables are not reset between chunks. *)
Definition final_args {A} (params : name -> tparams A) (selected : list name) (s : targs A) : targs A :=
  fold_left (fun s n => apply_params (params n) s) selected s.
Fixpoint transform_chunks {A X Y} (tr : name -> targs A -> X -> Y) (st : Y -> Y) (params : name -> tparams A)
    (selected : list name) (s : targs A) (chunks : list (list (name -> X))) : list (list Y) :=
  match chunks with
  | [] => []
  | c :: r => transform_rows tr st params selected s c ++
              transform_chunks tr st params selected (final_args params selected s) r
  end.
(** read_csv(chunksize): consecutive rows *)
Fixpoint chunk_rows {R} (fuel size : nat) (rows : list R) : list (list R) :=
  match fuel, rows with
  | _, [] => []
  | O, _ => [rows]
  | S f, _ => firstn size rows :: chunk_rows f size (skipn size rows)
  end.
Definition transform_disk {A X Y} (tr : name -> targs A -> X -> Y) (to_int : Y -> Y) (params : option (name -> tparams A))
    (selected : list name) (a : targs A) (chunksize : nat) (rows : list (name -> X)) : res (list (list Y)) :=
  rbind (base_metric params selected (ta_metric a)) (fun b =>
  Ok (transform_chunks tr (store to_int b) (params_fun params) selected a (chunk_rows (length rows) chunksize rows))).
