(** OptimalBinning2D and ContinuousOptimalBinning2D as objects: fit, fit_transform, transform, splits, status, binning_table,
    information, the methods to_json and read_json inherited from OptimalBinning, and build / analysis of the table, in any
    order, succeeding or failing. optbinning/binning/multidimensional/{binning_2d,continuous_binning_2d,binning_statistics_2d}.py,
    optbinning/binning/binning.py. Strategies grid and cart. Not modelled: timings, the metrics "woe" and "bins", plot. *)
From Coq Require Import List ZArith QArith Bool Arith String.
From Verif Require Import Model.Arr Model.Core Model.TwoD Model.TwoDCont Model.TwoDCart.
Import ListNotations.
Open Scope string_scope.
Open Scope Z_scope.

(** What distinguishes the two classes. Columns: (non-events, events) for the binary target, (records, sums) for the continuous one. *)
Record kind2 (S : Type) := mkKd {
  kd_point : S -> xval * xval;
  kd_clean : option (list xval) -> option (list xval) -> S -> bool;
  kd_special : option (list xval) -> option (list xval) -> S -> bool;
  kd_missing : S -> bool;
  kd_first : axis -> axis -> list Z -> list Z -> list S -> list Z;          (* matrix of the first column over the grid *)
  kd_second : axis -> axis -> list Z -> list Z -> list S -> list Z;
  kd_ok : size_cfg -> list Z -> list Z -> list nat -> bool;                 (* which rectangles are candidates (first, second) *)
  kd_rates : list Z -> list Z -> list (list nat) -> list Q;
  kd_records : list Z -> list Z -> list (list nat) -> list Z;
  kd_info : list S -> Z * Z;                                                (* special and missing rows *)
  kd_var : axis -> axis -> list Z -> list Z -> list S -> list (list nat) -> list S -> list S -> list Q;  (* squared Std column *)
  kd_column : list Z -> list Z -> list Q }.                                 (* metric "event_rate" / "mean" *)
Arguments kd_point {S}. Arguments kd_clean {S}. Arguments kd_special {S}. Arguments kd_missing {S}. Arguments kd_first {S}.
Arguments kd_second {S}. Arguments kd_ok {S}. Arguments kd_rates {S}. Arguments kd_records {S}. Arguments kd_info {S}.
Arguments kd_var {S}. Arguments kd_column {S}.
(** binning_2d.py:775-811, model_data_2d.py:84-133; no Std column *)
Definition binary_kind : kind2 sample2 :=
  mkKd _ (fun s => (s_x s, s_y s)) clean2 special2 missing2
    (fun ax ay sx sy => matrix ax ay sx sy true) (fun ax ay sx sy => matrix ax ay sx sy false)
    (fun g fne fe => admissible g fe fne) (fun fne fe => rates_of fe fne) (fun fne fe => records_of fe fne)
    target_info2 (fun _ _ _ _ _ _ _ _ => []) rate_column.
(** continuous_binning_2d.py:694-737, model_data_2d.py:300-350 *)
Definition continuous_kind : kind2 sample3 :=
  mkKd _ (fun s => (c_x s, c_y s)) clean3 special3 missing3
    (fun ax ay sx sy => matrix3 ax ay sx sy one3) (fun ax ay sx sy => matrix3 ax ay sx sy c_z)
    (fun g fr _ => admissible_cont g fr) (fun fr fs => means_of fr fs) (fun fr _ rows => map (cell_sum fr) rows)
    info3
    (fun ax ay sx sy clean sel spec miss =>
       app (map (var_of (matrix3 ax ay sx sy one3 clean) (matrix3 ax ay sx sy c_z clean) (matrix3 ax ay sx sy sq3 clean)) sel)
           [np_var (map c_z spec); np_var (map c_z miss)])
    mean_column.

(** Constructor parameters, which no method changes, and oracles: deterministic functions that may raise.
    [e_pre_x], [e_pre_y]: pre-binning of an axis, given the number of samples of the fit. [e_cats_*]: categorical_transform.
    [e_grow]: None for strategy "grid", else the decision tree of strategy "cart". [e_solve]: status and solution; None when
    solve() raises (cp_2d.py:104 with NumPy >= 1.24). [e_analysis]: analysis() of a built table. [e_save1]: saving a
    one-dimensional table. *)
Record env2 (S : Type) := mkE2 {
  e_kind : kind2 S; e_valid : bool;
  e_cx : option (list xval); e_cy : option (list xval); e_cat_x : bool; e_cat_y : bool;
  e_cats_x : list S -> list Z; e_cats_y : list S -> list Z;
  e_pre_x : nat -> axis -> list S -> res (list Z); e_pre_y : nat -> axis -> list S -> res (list Z);
  e_grow : option (list Z -> list Z -> axis -> axis -> list S -> res tree);
  e_size : nat -> size_cfg;                                                 (* limits, from the number of samples *)
  e_solve : nat -> nat -> rdata -> list Q -> list Z -> option (string * list bool);
  e_P0 : nat -> list nat;                                                   (* np.empty *)
  e_analysis : fitted2 -> list Q -> res Z; e_save1 : Z -> res unit }.
Arguments e_kind {S}. Arguments e_valid {S}. Arguments e_cx {S}. Arguments e_cy {S}. Arguments e_cat_x {S}. Arguments e_cat_y {S}.
Arguments e_cats_x {S}. Arguments e_cats_y {S}. Arguments e_pre_x {S}. Arguments e_pre_y {S}. Arguments e_grow {S}. Arguments e_size {S}.
Arguments e_solve {S}. Arguments e_P0 {S}. Arguments e_analysis {S}. Arguments e_save1 {S}.

(** A call's data: the samples, and whether check_input=True makes the pre-processing raise. *)
Record data2 (S : Type) := mkD2 { d_samples : list S; d_bad : bool }.
Arguments d_samples {S}. Arguments d_bad {S}.

(** ** _fit, binning_2d.py:558-762 / continuous_binning_2d.py:483-692: what has been assigned when the fit stops *)
Definition ivs := list (option Z * option Z).
Record early := mkEa { ea_cats : list Z * list Z; ea_prebins : nat }.      (* 667-672: _categories_x, _categories_y, _n_prebins *)
Record solved := mkSv { sv_early : early; sv_status : string; sv_nref : Z }.   (* _status (901), _n_refinements (692) *)
Inductive stop2 :=
| StBefore (k : exn)                                                        (* parameters, pre-processing, pre-binning, tree *)
| StSolver (a : early) (k : exn)                                            (* model data, solver *)
| StIndex (a : solved)                                                      (* 715: numpy rejects the rows as an index *)
| StSplits (a : solved) (counts : list Z * list Z) (k : exn)                (* 733: _splits_xy_optimal *)
| StDone (a : solved) (f : fitted2) (std : list Q) (m n : nat).
Definition axis_of (cat : bool) (cats : list Z) : axis := if cat then ACat cats else ANum.
Definition optimise2 {S} (e : env2 S) (ax ay : axis) (sx sy : list Z) (t : option tree) (data : list S) (a : early) : stop2 :=
  let kd := e_kind e in
  let clean := filter (kd_clean kd (e_cx e) (e_cy e)) data in
  let spec := filter (kd_special kd (e_cx e) (e_cy e)) data in
  let miss := filter (kd_missing kd) data in
  let n := Datatypes.S (List.length sx) in let m := Datatypes.S (List.length sy) in
  let f1 := kd_first kd ax ay sx sy clean in let f2 := kd_second kd ax ay sx sy clean in
  let ok := kd_ok kd (e_size e (List.length data)) f1 f2 in
  match t with
  | Some Leaf => StSolver a ValueError                                      (* model_data_cart_2d.py:45-49 *)
  | _ =>
      let rd := match t with None => grid_rdata m n ok | Some t' => cart_rdata m n t' (e_P0 e (m * n)%nat) ok end in
      match e_solve e m n rd (kd_rates kd f1 f2 (rd_rows rd)) (kd_records kd f1 f2 (rd_rows rd)) with
      | None => StSolver a OtherError
      | Some (status, sol) =>
          let sv := mkSv a status (Z.of_nat (m * n * (m + 1) * (n + 1)) / 4 - Z.of_nat (List.length (rd_rows rd))) in
          let sel := select sol (rd_rows rd) in
          if (same_lengths (rd_rows rd) && negb (Nat.eqb (List.length sel) 0))%bool then StIndex sv else
          let P := assign 0 sel (e_P0 e (m * n)%nat) in
          let counts := (app (map (cell_sum f1) sel) [fst (kd_info kd spec); fst (kd_info kd miss)],
                         app (map (cell_sum f2) sel) [snd (kd_info kd spec); snd (kd_info kd miss)]) in
          match rmap (fun i => bin_interval P i (fun c => Nat.modulo c n) sx) (seq 0 (List.length sel)) with
          | Err k => StSplits sv counts k
          | Ok bx =>
              match rmap (fun i => bin_interval P i (fun c => Nat.div c n) sy) (seq 0 (List.length sel)) with
              | Err k => StSplits sv counts k
              | Ok by' => StDone sv {| t_rows := sel; t_bx := bx; t_by := by'; t_nev := fst counts; t_ev := snd counts; t_P := P |}
                            (kd_var kd ax ay sx sy clean sel spec miss) m n
              end
          end
      end
  end.
Definition fit_2d {S} (e : env2 S) (d : data2 S) (check : bool) : stop2 :=
  if negb (e_valid e) then StBefore ValueError else
  if d_bad d && check then StBefore ValueError else
  let data := d_samples d in
  let clean := filter (kd_clean (e_kind e) (e_cx e) (e_cy e)) data in
  let cats := (if e_cat_x e then e_cats_x e clean else [], if e_cat_y e then e_cats_y e clean else []) in
  let ax := axis_of (e_cat_x e) (fst cats) in let ay := axis_of (e_cat_y e) (snd cats) in
  match e_pre_x e (List.length data) ax clean with
  | Err k => StBefore k
  | Ok sx =>
      match e_pre_y e (List.length data) ay clean with
      | Err k => StBefore k
      | Ok sy =>
          let a := mkEa cats (Datatypes.S (List.length sx) * Datatypes.S (List.length sy)) in
          match e_grow e with
          | None => optimise2 e ax ay sx sy None data a
          | Some g => match g sx sy ax ay clean with Err k => StBefore k | Ok t => optimise2 e ax ay sx sy (Some t) data a end
          end
      end
  end.

(** ** The object. The table is the instance made by the fit ([built]: build() was called on it), or the one-dimensional
    BinningTable that read_json makes from a file. *)
Inductive tab2 := Tab2D (f : fitted2) (std : list Q) (ax ay : axis) (m n : nat) (built : bool) | Tab1D (z : Z).
Record obj2 := mkO2 {
  b_cats : option (list Z * list Z); b_prebins : option nat; b_status : option string; b_nref : Z;
  b_counts : option (list Z * list Z); b_splits : option (ivs * ivs); b_table : option tab2;
  b_name : bool;                                                            (* 742: self.name exists *)
  b_fitted : bool }.
Definition new2 : obj2 := mkO2 None None None 0 None None None false false.
Definition set_early (o : obj2) (a : early) : obj2 :=
  mkO2 (Some (ea_cats a)) (Some (ea_prebins a)) (b_status o) (b_nref o) (b_counts o) (b_splits o) (b_table o) (b_name o) (b_fitted o).
Definition set_solved (o : obj2) (a : solved) : obj2 :=
  let o := set_early o (sv_early a) in
  mkO2 (b_cats o) (b_prebins o) (Some (sv_status a)) (sv_nref a) (b_counts o) (b_splits o) (b_table o) (b_name o) (b_fitted o).
Definition after2 {S} (e : env2 S) (o : obj2) (s : stop2) : obj2 * res unit :=
  match s with
  | StBefore k => (o, Err k)
  | StSolver a k => (set_early o a, Err k)
  | StIndex a => (set_solved o a, Err IndexError)
  | StSplits a c k =>
      let o := set_solved o a in
      (mkO2 (b_cats o) (b_prebins o) (b_status o) (b_nref o) (Some c) (b_splits o) (b_table o) (b_name o) (b_fitted o), Err k)
  | StDone a f std m n =>
      let cats := ea_cats (sv_early a) in
      (mkO2 (Some cats) (Some (ea_prebins (sv_early a))) (Some (sv_status a)) (sv_nref a) (Some (t_nev f, t_ev f)) (Some (t_bx f, t_by f))
            (Some (Tab2D f std (axis_of (e_cat_x e) (fst cats)) (axis_of (e_cat_y e) (snd cats)) m n false)) true true, Ok tt)
  end.

(** ** transform: binning_2d.py:549-556, transformations_2d.py:107-260 *)
Inductive metric2 := MIndices2 (ms mm : marg Z) | MColumn (ms mm : marg Q) | MUnknown.
Inductive values2 := VInd (l : list Z) | VCol (l : list Q).
(** the attributes transform reads *)
Definition read_fit (bx by' : ivs) (c : list Z * list Z) : fitted2 :=
  {| t_rows := []; t_bx := bx; t_by := by'; t_nev := fst c; t_ev := snd c; t_P := [] |}.
Definition rfmap {A B} (f : A -> B) (r : res A) : res B := match r with Ok a => Ok (f a) | Err k => Err k end.
Definition transform_2d {S} (e : env2 S) (o : obj2) (pts : list (xval * xval)) (bad check : bool) (m : metric2) : res values2 :=
  if negb (b_fitted o) then Err NotFitted else
  match m with
  | MUnknown => Err ValueError
  | _ =>
      if bad && check then Err ValueError else
      match b_splits o, b_counts o with
      | Some (bx, by'), Some c =>
          let cats := match b_cats o with Some p => p | None => ([], []) end in
          let ax := axis_of (e_cat_x e) (fst cats) in let ay := axis_of (e_cat_y e) (snd cats) in
          let f := read_fit bx by' c in
          match m with
          | MIndices2 ms mm => rfmap VInd (rmap (fun p => transform2_indices ax ay (e_cx e) (e_cy e) f ms mm (fst p) (snd p)) pts)
          | MColumn ms mm =>
              let nb := List.length bx in
              rfmap VCol (rmap (fun p => transform2 ax ay (e_cx e) (e_cy e) f MValue ms mm
                (kd_column (e_kind e) (cut ms mm nb (fst c)) (cut ms mm nb (snd c))) 0%Q (fst p) (snd p)) pts)
          | MUnknown => Err ValueError
          end
      | _, _ => Err TypeError                                               (* zip(None, None) *)
      end
  end.

(** 946-967 *)
Inductive shown_splits := Bounds (b : option ivs) | Categories (l : list (list Z)).
Definition show_axis (cat : bool) (cats : list Z) (b : option ivs) : res shown_splits :=
  if cat then match b with None => Err TypeError | Some l => Ok (Categories (map (fun iv => bin_cats iv cats) l)) end
  else Ok (Bounds b).
Inductive op2 (S : Type) :=
| OFit (d : data2 S) (check : bool)
| OFitTransform (d : data2 S) (check : bool) (m : metric2)
| OTransform (pts : list (xval * xval)) (bad check : bool) (m : metric2)
| OSplits | OStatus | OTable | OInformation (level_ok : bool)
| OToJson (path : bool) | OReadJson (content : res Z)                       (* what open, json.load and BinningTable( ** ) give *)
| OBuild (valid : bool) | OAnalysis.                                        (* methods of obj.binning_table *)
Arguments OFit {S}. Arguments OFitTransform {S}. Arguments OTransform {S}. Arguments OSplits {S}. Arguments OStatus {S}.
Arguments OTable {S}. Arguments OInformation {S}. Arguments OToJson {S}. Arguments OReadJson {S}. Arguments OBuild {S}. Arguments OAnalysis {S}.
Inductive val2 :=
| V2None | V2Values (v : values2) | V2Splits (x y : shown_splits) | V2Status (s : option string) | V2Table (t : option tab2)
| V2Info (status : option string) (prebins : option nat) (nref : Z) | V2Built (f : fitted2) (std : list Q) (ax ay : axis) | V2Analysis (z : Z)
| V2One (z : Z).                                                            (* whatever the one-dimensional table answers *)
Definition step2 {S} (e : env2 S) (o : obj2) (c : op2 S) : obj2 * res val2 :=
  match c with
  | OFit d check => let (o', r) := after2 e o (fit_2d e d check) in (o', match r with Ok _ => Ok V2None | Err k => Err k end)
  | OFitTransform d check m =>                                              (* 503-505 *)
      let (o', r) := after2 e o (fit_2d e d check) in
      (o', match r with
           | Err k => Err k
           | Ok _ => rfmap V2Values (transform_2d e o' (map (kd_point (e_kind e)) (d_samples d)) (d_bad d) check m)
           end)
  | OTransform pts bad check m => (o, rfmap V2Values (transform_2d e o pts bad check m))
  | OSplits =>
      (o, if negb (b_fitted o) then Err NotFitted else
          let cats := match b_cats o with Some p => p | None => ([], []) end in
          match show_axis (e_cat_x e) (fst cats) (option_map fst (b_splits o)) with
          | Err k => Err k
          | Ok x => match show_axis (e_cat_y e) (snd cats) (option_map snd (b_splits o)) with Err k => Err k | Ok y => Ok (V2Splits x y) end
          end)
  | OStatus => (o, if negb (b_fitted o) then Err NotFitted else Ok (V2Status (b_status o)))
  | OTable => (o, if negb (b_fitted o) then Err NotFitted else Ok (V2Table (b_table o)))
  | OInformation level_ok =>                                                (* binning.py:675-699 *)
      (o, if negb (b_fitted o) then Err NotFitted else if negb level_ok then Err ValueError else
          if negb (b_name o) then Err OtherError (* AttributeError *) else Ok (V2Info (b_status o) (b_prebins o) (b_nref o)))
  | OToJson path =>                                                         (* binning.py:1189-1195: table.name does not exist *)
      (o, if negb path then Err ValueError else if negb (b_fitted o) then Err NotFitted else
          match b_table o with
          | Some (Tab1D z) => rfmap (fun _ => V2None) (e_save1 e z)
          | _ => Err OtherError
          end)
  | OReadJson content =>                                                    (* binning.py:1226-1235: _is_fitted is set first *)
      let o' t := mkO2 (b_cats o) (b_prebins o) (b_status o) (b_nref o) (b_counts o) (b_splits o) t (b_name o) true in
      match content with Ok z => (o' (Some (Tab1D z)), Ok V2None) | Err k => (o' (b_table o), Err k) end
  | OBuild valid =>
      if negb (b_fitted o) then (o, Err NotFitted) else
      match b_table o with
      | None => (o, Err OtherError)
      | Some (Tab1D z) => (o, Ok (V2One z))
      | Some (Tab2D f std ax ay m n _) =>
          if negb valid then (o, Err ValueError) else
          (mkO2 (b_cats o) (b_prebins o) (b_status o) (b_nref o) (b_counts o) (b_splits o) (Some (Tab2D f std ax ay m n true)) (b_name o) true,
           Ok (V2Built f std ax ay))
      end
  | OAnalysis =>                                                            (* no check: self._paths_x is set by build() *)
      (o, if negb (b_fitted o) then Err NotFitted else
          match b_table o with
          | None => Err OtherError
          | Some (Tab1D z) => Ok (V2One z)
          | Some (Tab2D f std _ _ _ _ built) => if built then rfmap V2Analysis (e_analysis e f std) else Err OtherError
          end)
  end.
Fixpoint exec2 {S} (e : env2 S) (o : obj2) (h : list (op2 S)) : obj2 * list (res val2) :=
  match h with
  | [] => (o, [])
  | c :: r => let (o', v) := step2 e o c in let (o'', l) := exec2 e o' r in (o'', v :: l)
  end.
