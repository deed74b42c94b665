(** The OptimalBinning object (dtype "numerical", binary target) as a state machine: fit, transform, splits, status,
    binning_table, information, to_json, read_json, set_params and the methods of the binning table, in any order,
    any number of times, succeeding or failing. optbinning/binning/binning.py, base.py, binning_statistics.py. *)
From Coq Require Import List ZArith QArith Bool Arith.
From Verif Require Import Model.Arr Model.Core.
Import ListNotations.
Open Scope Z_scope.

(** Python list or numpy array (they differ for json and for the [isinstance] checks). *)
Inductive container := PyList | NdArray.

(** BinningTable: the constructor's arguments (binning_statistics.py:466-480) and the two flags (495-496).
    [t_int]: min_x and max_x are numpy integers (x_clean.min() of an integer array, binning.py:851) rather than floats.
    Not kept: name, dtype (constants), categories (None for "numerical"). *)
Record table := mkT {
  t_special : special; t_special_c : container;
  t_splits : list Z; t_splits_c : container;
  t_nev : list Z; t_ev : list Z;
  t_min : Z; t_max : Z; t_int : bool;
  t_others_c : container;                         (* cat_others: empty for "numerical" *)
  t_user : option (container * list Z);
  t_built : bool; t_analyzed : bool }.

(** A json file: the dictionary of to_json, or what is left when json.dump raised after [open(path, "w")]. *)
Record jtable := mkJ { j_special : special; j_splits : list Z; j_nev : list Z; j_ev : list Z;
                       j_min : Z; j_max : Z; j_user : option (list Z) }.
Inductive file := Json (j : jtable) | Truncated.
(** file system: path -> contents *)
Definition fsys := Z -> option file.
Definition fwrite (fs : fsys) (p : Z) (f : file) : fsys := fun q => if q =? p then Some f else fs q.

(** Constructor parameters that no method changes, and the two oracles: [e_prebin], the split points proposed by the
    prebinning method from the clean samples (sklearn or MDLP; it may raise), and [e_solver], the optimiser: it gets
    user_splits_fixed, whether at least one event and non-event per bin is imposed (929-942), the number of samples
    and the prebin counts, and returns a status and a solution, or raises. *)
Record env := mkE {
  e_wu : Z; e_div : divergence; e_special : special; e_special_c : container;
  e_prebin : list csample -> res (list Z);
  e_solver : option (list bool) -> bool -> nat -> list Z -> list Z -> res (Z * list bool) }.

(** The mutable attributes. [o_fixed]: user_splits_fixed and whether its entries are numpy booleans. Not kept:
    _solution, _n_samples, _categories, _cat_others (overwritten before use in each fit), timings, _n_prebins. *)
Record obj := mkO {
  o_user : option (container * list Z);
  o_fixed : option (bool * list bool);
  o_nref : nat;                                   (* _n_refinements *)
  o_flag : bool;                                  (* _flag_min_n_event_nonevent *)
  o_spec : option (list (Z * Z));                 (* _n_nonevent_special, _n_event_special *)
  o_miss : option (Z * Z);                        (* _n_nonevent_missing, _n_event_missing *)
  o_status : option Z;
  o_splits : option (container * list Z);         (* _splits_optimal *)
  o_counts : option (list Z * list Z);            (* _n_nonevent, _n_event *)
  o_table : option table;
  o_fitted : bool }.

(** binning.py:444-532 *)
Definition new (user : option (container * list Z)) (fixed : option (bool * list bool)) : obj :=
  mkO user fixed 0 false None None None None None None false.

(** binning.py:207-224, the checks that involve attributes which change. (The others depend on constants.)
    [isinstance(s, bool)] is False for a numpy boolean. *)
Definition params_ok (o : obj) : bool :=
  match o_fixed o with
  | None => true
  | Some (np, f) =>
      match o_user o with
      | None => false
      | Some (_, u) => (negb np || (length f =? 0)%nat) && (length u =? length f)%nat
      end
  end.

(** [np.argsort(user_splits)] applied to user_splits and user_splits_fixed (796-802; the splits are distinct). *)
Fixpoint insert_by_key {A} (x : Z * A) (l : list (Z * A)) : list (Z * A) :=
  match l with [] => [x] | y :: r => if fst x <=? fst y then x :: l else y :: insert_by_key x r end.
Definition sort_by_key {A} (l : list (Z * A)) : list (Z * A) := fold_right insert_by_key [] l.
Definition sorted_splits (u : list Z) : list Z := map fst (sort_by_key (map (fun s => (s, tt)) u)).
Definition permuted (u : list Z) (f : list bool) : list bool := map snd (sort_by_key (combine u f)).
Fixpoint distinct (u : list Z) : bool :=
  match u with [] => true | x :: r => negb (existsb (Z.eqb x) r) && distinct r end.

(** The attributes that _compute_prebins changes. *)
Record pstate := mkP { p_user : option (container * list Z); p_fixed : option (bool * list bool);
                       p_nref : nat; p_flag : bool }.

(** binning.py:1076-1136: as [Core.compute_prebins], but keeping the attributes when the call raises. *)
Fixpoint prebins_st (fuel : nat) (wu : Z) (d : divergence) (data : list csample) (ps : pstate) (splits : list Z)
  : option (pstate * res (list Z * list Z * list Z)) :=
  match fuel with
  | O => None
  | S fuel' =>
    match splits with
    | [] => Some (ps, Ok ([], [], []))
    | _ =>
      let n_bins := S (length splits) in
      let nev := counts wu (digitize splits) true data n_bins in
      let ev := counts wu (digitize splits) false data n_bins in
      let mask_remove := map2 (fun a b => (a =? 0) || (b =? 0)) nev ev in
      if any mask_remove then
        if refines d then
          let ms := mask_splits mask_remove in
          match p_fixed ps with
          | Some (np, f) =>
              if any (mand f ms) then
                Some (mkP (p_user ps) (p_fixed ps) (S (p_nref ps)) (p_flag ps), Err ValueError)
              else
                prebins_st fuel' wu d data
                  (mkP (option_map (fun cu => (NdArray, select (mnot ms) (snd cu))) (p_user ps))
                       (Some (true, select (mnot ms) f)) (S (p_nref ps)) (p_flag ps))
                  (select (mnot ms) splits)
          | None =>
              prebins_st fuel' wu d data (mkP (p_user ps) None (S (p_nref ps)) (p_flag ps))
                (select (mnot ms) splits)
          end
        else Some (mkP (p_user ps) (p_fixed ps) (p_nref ps) true, Ok (splits, nev, ev))
      else Some (ps, Ok (splits, nev, ev))
    end
  end.

(** Training data: samples, and whether the dtype of x is an integer one. *)
Record data := mkD { d_x : list xval; d_y : list yval; d_w : list Z; d_int : bool }.

Definition zmin (l : list Z) : Z := match l with [] => 0 | a :: r => fold_left Z.min r a end.
Definition zmax (l : list Z) : Z := match l with [] => 0 | a :: r => fold_left Z.max r a end.

(** binning.py:898-1043 and 829-877: optimisation, table, end of the fit. [c]: container of [splits].
    Simplification: the solver's vector has one entry per prebin (C07_solution_vector_shape). *)
Definition set_result (o : obj) (status : Z) (c : container) (s : list Z) : obj :=
  mkO (o_user o) (o_fixed o) (o_nref o) (o_flag o) (o_spec o) (o_miss o) (Some status) (Some (c, s))
      (o_counts o) (o_table o) (o_fitted o).
Definition set_counts (o : obj) (nev ev : list Z) : obj :=
  mkO (o_user o) (o_fixed o) (o_nref o) (o_flag o) (o_spec o) (o_miss o) (o_status o) (o_splits o)
      (Some (nev, ev)) (o_table o) (o_fitted o).
Definition set_table (o : obj) (t : table) : obj :=
  mkO (o_user o) (o_fixed o) (o_nref o) (o_flag o) (o_spec o) (o_miss o) (o_status o) (o_splits o)
      (o_counts o) (Some t) true.

Definition post (e : env) (x : data) (so : split_out) (o : obj) (sol : list bool) (splits nev ev : list Z)
    (c : container) (s : list Z) : obj * res unit :=
  let t := target_info_samples (y_clean so) (sw_clean so) in
  let nev := match splits with [] => [trunc (e_wu e) (fst t)] | _ => nev end in          (* 839-842 *)
  let ev := match splits with [] => [trunc (e_wu e) (snd t)] | _ => ev end in
  match o_spec o, o_miss o with
  | Some sp, Some m =>
      match bin_info_1 (e_wu e) sol nev None (map fst sp) (fst m),
            bin_info_1 (e_wu e) sol ev None (map snd sp) (snd m) with
      | Some a, Some b =>
          let o := set_counts o a b in
          match map num (x_clean so) with
          | [] => (o, Err ValueError)                                   (* 851: min() of an empty array *)
          | l => (set_table o (mkT (e_special e) (e_special_c e) s c a b (zmin l) (zmax l) (d_int x) PyList
                                   (o_user o) false false), Ok tt)      (* 857-875 *)
          end
      | _, _ => (o, Err IndexError)
      end
  | _, _ => (o, Err TypeError)           (* binning_statistics.py:261: np.array([.., None]).astype(np.int64) *)
  end.

Definition optimise (e : env) (x : data) (so : split_out) (o : obj) (splits nev ev : list Z) (c : container)
  : obj * res unit :=
  if (length nev <=? 1)%nat then                                        (* 904-916 *)
    post e x so (set_result o 0 c splits) (repeat false (length splits)) splits nev ev c splits
  else
    match e_solver e (option_map snd (o_fixed o)) (negb (refines (e_div e)) && o_flag o) (length (d_x x)) nev ev with
    | Err k => (o, Err k)
    | Ok (status, sol) =>                                               (* 1025-1037 *)
        let s := select (init sol) splits in
        post e x so (set_result o status NdArray s) sol splits nev ev NdArray s
    end.

(** binning.py:1045-1074 then 811-831 *)
Definition refine_and_optimise (e : env) (x : data) (so : split_out) (o : obj) (splits0 : list Z) : obj * res unit :=
  let sp := target_info_special (e_special e) (x_special so) (y_special so) (sw_special so) in
  let m := target_info_samples (y_missing so) (sw_missing so) in
  match prebins_st (S (length splits0)) (e_wu e) (e_div e) (to_csamples so)
                   (mkP (o_user o) (o_fixed o) (o_nref o) (o_flag o)) splits0 with
  | None => (o, Err OtherError)                                          (* never: C05 *)
  | Some (ps, r) =>
      let o := mkO (p_user ps) (p_fixed ps) (p_nref ps) (p_flag ps) (Some sp) (Some m) (o_status o) (o_splits o)
                   (o_counts o) (o_table o) (o_fitted o) in
      match r with
      | Err k => (o, Err k)
      | Ok (splits, nev, ev) => optimise e x so o splits nev ev NdArray
      end
  end.

(** binning.py:700-877. Simplifications: split_digits = None, no outlier detector, arrays of equal lengths,
    class weights already in the weights (see Core.v). *)
Definition fit (e : env) (x : data) (o : obj) : obj * res unit :=
  if negb (params_ok o) then (o, Err ValueError) else
  let so := split_masks (e_special e) (d_x x) (d_y x) (d_w x) in
  match o_user o with
  | Some (c, []) => optimise e x so o [] [] [] c                         (* 780-783 *)
  | Some (c, u) =>
      if negb (distinct u) then (o, Err ValueError)                      (* 790 *)
      else
        let o := mkO (o_user o) (option_map (fun p => (true, permuted u (snd p))) (o_fixed o)) (o_nref o) (o_flag o)
                     (o_spec o) (o_miss o) (o_status o) (o_splits o) (o_counts o) (o_table o) (o_fitted o) in
        refine_and_optimise e x so o (sorted_splits u)
  | None =>
      match e_prebin e (to_csamples so) with
      | Err k => (o, Err k)
      | Ok splits0 => refine_and_optimise e x so o splits0
      end
  end.

(** transform: binning.py:656-664, transformations.py:229-298, 161-163; metrics "indices" and "event_rate". *)
Inductive metric := Indices (ms mm : marg Z) | EventRate (ms mm : marg Q).
Inductive answer := AIndex (l : list Z) | ARate (l : list Q).
Fixpoint all_res {A} (l : list (res A)) : res (list A) :=
  match l with
  | [] => Ok []
  | Err k :: _ => Err k
  | Ok a :: r => match all_res r with Ok t => Ok (a :: t) | Err k => Err k end
  end.
(** 276-280 *)
Definition event_rates (nev ev : list Z) : list Q :=
  map2 (fun a b => if (0 <? a) && (0 <? b) then (inject_Z b / inject_Z (a + b))%Q else 0%Q) nev ev.
Definition transform (e : env) (o : obj) (m : metric) (xs : list xval) : res answer :=
  if negb (o_fitted o) then Err NotFitted else
  match o_splits o with
  | None => Err TypeError                                              (* len(None), 257 *)
  | Some (_, s) =>
      match m with
      | Indices ms mm =>
          match all_res (map (transform_indices s (e_special e) ms mm) xs) with
          | Ok l => Ok (AIndex l) | Err k => Err k end
      | EventRate ms mm =>
          match o_counts o with
          | None => Err TypeError
          | Some (nev, ev) =>
              match all_res (map (transform1_num s (e_special e) MValue ms mm (event_rates nev ev) 0%Q) xs) with
              | Ok l => Ok (ARate l) | Err k => Err k end
          end
      end
  end.

(** to_json: binning.py:1180-1214. Values json cannot encode: numpy arrays and numpy integers (float64 is a float). *)
Definition json_ok (t : table) : bool :=
  (match t_special t, t_special_c t with SpList _, NdArray => false | _, _ => true end) &&
  negb (t_int t) && (match t_others_c t with PyList => true | NdArray => false end) &&
  (match t_user t with Some (NdArray, _) => false | _ => true end).
Definition to_j (t : table) : jtable :=
  mkJ (t_special t) (t_splits t) (t_nev t) (t_ev t) (t_min t) (t_max t) (option_map snd (t_user t)).
Definition to_json (o : obj) (fs : fsys) (p : Z) : fsys * res unit :=
  if negb (o_fitted o) then (fs, Err NotFitted) else
  match o_table o with
  | None => (fs, Err OtherError)                                       (* None.name *)
  | Some t =>
      match t_splits_c t with
      | PyList => (fs, Err OtherError)                                 (* list has no tolist *)
      | NdArray => if json_ok t then (fwrite fs p (Json (to_j t)), Ok tt) else (fwrite fs p Truncated, Err TypeError)
      end
  end.

(** read_json: binning.py:1216-1234. Lists become arrays. *)
Definition of_j (j : jtable) : table :=
  mkT (j_special j) (match j_special j with SpList _ => NdArray | _ => PyList end) (j_splits j) NdArray
      (j_nev j) (j_ev j) (j_min j) (j_max j) false NdArray (option_map (fun u => (NdArray, u)) (j_user j)) false false.
Definition set_fitted (o : obj) (t : option table) : obj :=
  mkO (o_user o) (o_fixed o) (o_nref o) (o_flag o) (o_spec o) (o_miss o) (o_status o) (o_splits o) (o_counts o) t true.
Definition read_json (o : obj) (fs : fsys) (p : Z) : obj * res unit :=
  match fs p with
  | None => (set_fitted o (o_table o), Err OtherError)                 (* FileNotFoundError, after line 1225 *)
  | Some Truncated => (set_fitted o (o_table o), Err ValueError)       (* JSONDecodeError *)
  | Some (Json j) => (set_fitted o (Some (of_j j)), Ok tt)
  end.

(** ** Histories of calls. fit_transform is fit followed by transform (603-611). *)
Inductive op :=
| Fit (d : data) | Transform (m : metric) (xs : list xval) | Splits | Status | Table | Information
| ToJson (p : Z) | ReadJson (p : Z)
| SetParams (user : option (container * list Z)) (fixed : option (bool * list bool))
    (* sklearn's set_params(user_splits=.., user_splits_fixed=..) *)
| Build (valid : bool)          (* binning_table.build(..); [valid]: the arguments are accepted *)
| Plot (valid : bool) | Analysis (valid : bool)
| Statistic                     (* binning_table.gini, iv, js, hellinger, triangular, ks *)
| QualityScore.

Inductive value := VNone | VAnswer (a : answer) | VSplits (s : option (list Z)) | VStatus (s : option Z)
| VTable (t : option table) | VInfo (nref : nat).

Definition world := (obj * fsys)%type.

(** Access to the current binning table (binning.py:1147-1149) followed by a method of the table. *)
Definition on_table (w : world) (f : table -> table * res value) : world * res value :=
  if negb (o_fitted (fst w)) then (w, Err NotFitted) else
  match o_table (fst w) with
  | None => (w, Err OtherError)                                        (* None has no attribute .. *)
  | Some t => let (t', r) := f t in ((set_fitted (fst w) (Some t'), snd w), r)
  end.
Definition flags (t : table) (b a : bool) : table :=
  mkT (t_special t) (t_special_c t) (t_splits t) (t_splits_c t) (t_nev t) (t_ev t) (t_min t) (t_max t) (t_int t)
      (t_others_c t) (t_user t) b a.

Definition unit_res (r : res unit) : res value := match r with Ok _ => Ok VNone | Err k => Err k end.

Definition step (e : env) (w : world) (c : op) : world * res value :=
  let (o, fs) := w in
  match c with
  | Fit d => let (o', r) := fit e d o in ((o', fs), unit_res r)
  | Transform m xs => (w, match transform e o m xs with Ok a => Ok (VAnswer a) | Err k => Err k end)
  | Splits => (w, if negb (o_fitted o) then Err NotFitted else Ok (VSplits (option_map snd (o_splits o))))  (* 1160 *)
  | Status => (w, if negb (o_fitted o) then Err NotFitted else Ok (VStatus (o_status o)))                    (* 1176 *)
  | Table => (w, if negb (o_fitted o) then Err NotFitted else Ok (VTable (o_table o)))                       (* 1147 *)
  | Information => (w, if negb (o_fitted o) then Err NotFitted else Ok (VInfo (o_nref o)))                   (* 675 *)
  | ToJson p => let (fs', r) := to_json o fs p in ((o, fs'), unit_res r)
  | ReadJson p => let (o', r) := read_json o fs p in ((o', fs), unit_res r)
  | SetParams u f => ((mkO u f (o_nref o) (o_flag o) (o_spec o) (o_miss o) (o_status o) (o_splits o) (o_counts o)
                           (o_table o) (o_fitted o), fs), Ok VNone)
  | Build valid => on_table w (fun t =>                                (* binning_statistics.py:512-606 *)
      if valid then (flags t true (t_analyzed t), Ok VNone) else (t, Err ValueError))
  | Plot valid => on_table w (fun t =>                                 (* 650 *)
      if negb (t_built t) then (t, Err NotFitted) else (t, if valid then Ok VNone else Err ValueError))
  | Analysis valid => on_table w (fun t =>                             (* 912, 1005 *)
      if negb (t_built t) then (t, Err NotFitted)
      else if valid then (flags t (t_built t) true, Ok VNone) else (t, Err ValueError))
  | Statistic => on_table w (fun t => (t, if negb (t_built t) then Err NotFitted else Ok VNone))   (* 1019-1083 *)
  | QualityScore => on_table w (fun t => (t, if negb (t_analyzed t) then Err NotFitted else Ok VNone)) (* 1098 *)
  end.

Fixpoint exec (e : env) (w : world) (h : list op) : world * list (res value) :=
  match h with
  | [] => (w, [])
  | c :: r => let (w', v) := step e w c in let (w'', l) := exec e w' r in (w'', v :: l)
  end.
