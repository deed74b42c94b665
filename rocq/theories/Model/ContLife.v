(** The ContinuousOptimalBinning object (dtype "numerical") as a state machine: fit, transform, splits, status,
    binning_table, information, to_json, read_json, set_params and the methods of the binning table, in any order,
    any number of times, succeeding or failing. optbinning/binning/continuous_binning.py, base.py,
    binning_statistics.py. The computations of one fit are those of Model/Cont.v. *)
From Coq Require Import List ZArith QArith Bool Arith.
From Verif Require Import Model.Arr Model.Core Model.CP Model.Cont Model.Lifecycle.
Import ListNotations.
Open Scope Z_scope.

(** ContinuousBinningTable: constructor arguments (binning_statistics.py:1577-1597; the six columns are one list of rows)
    and the two flags (1608-1609). [t_int]: as in Model/Lifecycle.v. *)
Record ctable := mkCT {
  ct_special : special; ct_special_c : container;
  ct_splits : list Z; ct_splits_c : container;
  ct_rows : list trow;
  ct_min : Z; ct_max : Z; ct_int : bool;
  ct_others_c : container;
  ct_user : option (container * list Z);
  ct_built : bool; ct_analyzed : bool }.

Record cjson := mkCJ { cj_special : special; cj_splits : list Z; cj_rows : list trow;
                       cj_min : Z; cj_max : Z; cj_user : option (list Z) }.
Inductive cfile := CJson (j : cjson) | CTruncated.
Definition cfsys := Z -> option cfile.
Definition cwrite (fs : cfsys) (p : Z) (f : cfile) : cfsys := fun q => if q =? p then Some f else fs q.

(** Constructor parameters that no method changes, and the oracles: the prebinning method (on the clean records) and the
    optimiser (user_splits_fixed, number of samples, prebin statistics; it may raise). *)
Record cenv := mkCE {
  ce_special : special; ce_special_c : container;
  ce_prebin : list ksample -> res (list Z);
  ce_solver : option (list bool) -> nat -> list cstat -> res (Z * list bool) }.

(** The mutable attributes (continuous_binning.py:389-470). [co_rows]: _n_records, _sums, _stds, _min_target,
    _max_target, _n_zeros. [co_old]: _std_missing, _min_target_missing, _max_target_missing. Not kept: the attributes
    that every fit overwrites before reading them. *)
Record cobj := mkCO {
  co_user : option (container * list Z);
  co_fixed : option (bool * list bool);
  co_nref : nat;
  co_old : stale;
  co_status : option Z;
  co_splits : option (container * list Z);
  co_rows : option (list trow);
  co_table : option ctable;
  co_fitted : bool }.

Definition cnew (user : option (container * list Z)) (fixed : option (bool * list bool)) : cobj :=
  mkCO user fixed 0 fresh None None None None false.

(** continuous_binning.py:145-160 *)
Definition cparams_ok (o : cobj) : bool :=
  match co_fixed o with
  | None => true
  | Some (np, f) =>
      match co_user o with
      | None => false
      | Some (_, u) => (negb np || (length f =? 0)%nat) && (length u =? length f)%nat
      end
  end.

(** Attributes that _compute_prebins changes. *)
Record cpstate := mkCP { cps_user : option (container * list Z); cps_fixed : option (bool * list bool); cps_nref : nat }.

(** continuous_binning.py:897-967: as [Cont.compute_prebins_c], keeping the attributes when the call raises. *)
Fixpoint cprebins_st (fuel : nat) (data : list ksample) (ps : cpstate) (splits : list Z)
  : option (cpstate * res (list Z * list cstat)) :=
  match fuel with
  | O => None
  | S fuel' =>
    match splits with
    | [] => Some (ps, Err ValueError)
    | _ =>
      let st := stats splits data in
      let mask_remove := map (fun c => c_n c =? 0) st in
      if any mask_remove then
        let ms := mask_splits mask_remove in
        match cps_fixed ps with
        | Some (np, f) =>
            if any (mand f ms) then Some (mkCP (cps_user ps) (cps_fixed ps) (S (cps_nref ps)), Err ValueError)
            else
              cprebins_st fuel' data
                (mkCP (option_map (fun cu => (NdArray, select (mnot ms) (snd cu))) (cps_user ps))
                      (Some (true, select (mnot ms) f)) (S (cps_nref ps)))
                (select (mnot ms) splits)
        | None =>
            cprebins_st fuel' data (mkCP (cps_user ps) None (S (cps_nref ps))) (select (mnot ms) splits)
        end
      else Some (ps, Ok (splits, st))
    end
  end.
(** continuous_binning.py:881-895 *)
Definition crefine_st (data : list ksample) (ps : cpstate) (splits : list Z) : option (cpstate * res (list Z * list cstat)) :=
  match splits with [] => Some (ps, Ok ([], [])) | _ => cprebins_st (S (length splits)) data ps splits end.

Record cdata := mkCD { cd_recs : list krec; cd_int : bool }.

Definition clean_data (e : cenv) (x : cdata) : list ksample := map to_ksample (filter (k_clean (ce_special e)) (cd_recs x)).

(** continuous_binning.py:864-867: the three attributes are only written when there are missing records *)
Definition new_old (old : stale) (l : list krec) : stale :=
  match l with
  | [] => old
  | _ => {| old_std := nstd_of (map k_prod l); old_min := nmin (map k_prod l); old_max := nmax (map k_prod l) |}
  end.

Definition c_set_result (o : cobj) (status : Z) (c : container) (s : list Z) : cobj :=
  mkCO (co_user o) (co_fixed o) (co_nref o) (co_old o) (Some status) (Some (c, s)) (co_rows o) (co_table o) (co_fitted o).
Definition c_set_rows (o : cobj) (rows : list trow) : cobj :=
  mkCO (co_user o) (co_fixed o) (co_nref o) (co_old o) (co_status o) (co_splits o) (Some rows) (co_table o) (co_fitted o).
Definition c_set_table (o : cobj) (t : option ctable) : cobj :=
  mkCO (co_user o) (co_fixed o) (co_nref o) (co_old o) (co_status o) (co_splits o) (co_rows o) t true.

(** continuous_binning.py:680-739. [mrow] is read from the attributes (co_old), see [missing_row]. *)
Definition cpost (e : cenv) (x : cdata) (o : cobj) (srows : list trow) (sol : list bool) (st : list cstat)
    (c : container) (s : list Z) : cobj * res unit :=
  let data := clean_data e x in
  let tail := srows ++ [missing_row (co_old o) (filter k_missing (cd_recs x))] in
  let clean := match sol, data with
               | [], [] => Err ValueError                               (* 695: np.min of an empty array *)
               | [], _ => Ok [single_row data]
               | _, _ => match merge_stats acc0 sol st with None => Err IndexError | Some rows => Ok rows end
               end in
  match clean with
  | Err k => (o, Err k)
  | Ok rows =>
      let o := c_set_rows o (rows ++ tail) in
      match map s_x data with
      | [] => (o, Err ValueError)                                       (* 712: x_clean.min() *)
      | l => (c_set_table o (Some (mkCT (ce_special e) (ce_special_c e) s c (rows ++ tail) (zmin l) (zmax l) (cd_int x) PyList
                                        (co_user o) false false)), Ok tt)
      end
  end.

(** continuous_binning.py:741-836 *)
Definition coptimise (e : cenv) (x : cdata) (o : cobj) (srows : list trow) (splits : list Z) (st : list cstat)
  : cobj * res unit :=
  if (length st <=? 1)%nat then
    cpost e x (c_set_result o 0 NdArray splits) srows (repeat false (length splits)) st NdArray splits
  else
    match ce_solver e (option_map snd (co_fixed o)) (length (cd_recs x)) st with
    | Err k => (o, Err k)
    | Ok (status, sol) =>
        let s := select (init sol) splits in
        cpost e x (c_set_result o status NdArray s) srows sol st NdArray s
    end.

(** continuous_binning.py:846-895, then the optimiser *)
Definition crefine_and_optimise (e : cenv) (x : cdata) (o : cobj) (splits0 : list Z) : cobj * res unit :=
  match special_rows (ce_special e) (filter (k_special (ce_special e)) (cd_recs x)) with
  | Err k => (o, Err k)                                                 (* AttributeError, 851-855 *)
  | Ok srows =>
      let old := new_old (co_old o) (filter k_missing (cd_recs x)) in
      match crefine_st (clean_data e x) (mkCP (co_user o) (co_fixed o) (co_nref o)) splits0 with
      | None => (o, Err OtherError)                                     (* never *)
      | Some (ps, r) =>
          let o := mkCO (cps_user ps) (cps_fixed ps) (cps_nref ps) old (co_status o) (co_splits o) (co_rows o)
                        (co_table o) (co_fitted o) in
          match r with
          | Err k => (o, Err k)
          | Ok (splits, st) => coptimise e x o srows splits st
          end
      end
  end.

(** continuous_binning.py:548-739. Simplifications as in Model/Lifecycle.v (split_digits=None, no outlier detector,
    arrays of equal lengths). *)
Definition cfit (e : cenv) (x : cdata) (o : cobj) : cobj * res unit :=
  if negb (cparams_ok o) then (o, Err ValueError) else
  match co_user o with
  | Some (_, []) => (o, Err OtherError)                                  (* 627-631, 679: UnboundLocalError *)
  | Some (c, u) =>
      if negb (distinct u) then (o, Err ValueError)                      (* 638 *)
      else
        crefine_and_optimise e x
          (mkCO (co_user o) (option_map (fun p => (true, permuted u (snd p))) (co_fixed o)) (co_nref o) (co_old o)
                (co_status o) (co_splits o) (co_rows o) (co_table o) (co_fitted o))
          (sorted_splits u)
  | None =>
      match ce_prebin e (clean_data e x) with
      | Err k => (o, Err k)
      | Ok splits0 => crefine_and_optimise e x o splits0
      end
  end.

(** transform (495-546): metrics "indices" and "mean". *)
Inductive cmetric := CIndices (ms mm : marg Z) | CMean (ms mm : marg (option Q)).
Inductive canswer := CAIndex (l : list Z) | CAMean (l : list (option Q)).
Definition ctransform (e : cenv) (o : cobj) (m : cmetric) (xs : list xval) : res canswer :=
  if negb (co_fitted o) then Err NotFitted else
  match co_splits o with
  | None => Err TypeError
  | Some (_, s) =>
      match m with
      | CIndices ms mm =>
          match co_rows o, is_empirical ms || is_empirical mm with
          | None, false => Err TypeError                                 (* None[:n_bins], 427-428 *)
          | _, _ =>
            match all_res (map (transform_indices s (ce_special e) ms mm) xs) with
            | Ok l => Ok (CAIndex l) | Err k => Err k end
          end
      | CMean ms mm =>
          match co_rows o with
          | None => Err TypeError                                        (* or None > 0, 433 *)
          | Some rows =>
            match all_res (map (transform1_num s (ce_special e) MValue ms mm
                      (mean_col (is_empirical ms || is_empirical mm) (S (length s)) rows) (Some 0%Q)) xs) with
            | Ok l => Ok (CAMean l) | Err k => Err k end
          end
      end
  end.

(** to_json: 981-1023. Values json cannot encode as in Model/Lifecycle.v. *)
Definition cjson_ok (t : ctable) : bool :=
  (match ct_special t, ct_special_c t with SpList _, NdArray => false | _, _ => true end) &&
  negb (ct_int t) && (match ct_others_c t with PyList => true | NdArray => false end) &&
  (match ct_user t with Some (NdArray, _) => false | _ => true end).
Definition to_cj (t : ctable) : cjson :=
  mkCJ (ct_special t) (ct_splits t) (ct_rows t) (ct_min t) (ct_max t) (option_map snd (ct_user t)).
Definition cto_json (o : cobj) (fs : cfsys) (p : Z) : cfsys * res unit :=
  if negb (co_fitted o) then (fs, Err NotFitted) else
  match co_table o with
  | None => (fs, Err OtherError)
  | Some t =>
      match ct_splits_c t with
      | PyList => (fs, Err OtherError)
      | NdArray => if cjson_ok t then (cwrite fs p (CJson (to_cj t)), Ok tt) else (cwrite fs p CTruncated, Err TypeError)
      end
  end.

(** read_json: 1025-1045 *)
Definition of_cj (j : cjson) : ctable :=
  mkCT (cj_special j) (match cj_special j with SpList _ => NdArray | _ => PyList end) (cj_splits j) NdArray
       (cj_rows j) (cj_min j) (cj_max j) false NdArray (option_map (fun u => (NdArray, u)) (cj_user j)) false false.
Definition cread_json (o : cobj) (fs : cfsys) (p : Z) : cobj * res unit :=
  match fs p with
  | None => (c_set_table o (co_table o), Err OtherError)
  | Some CTruncated => (c_set_table o (co_table o), Err ValueError)
  | Some (CJson j) => (c_set_table o (Some (of_cj j)), Ok tt)
  end.

(** ** The Totals row of build (binning_statistics.py:1679-1686): np.nanmin / np.nanmax over the Min / Max columns. *)
Definition nanmin (l : list ext) : ext :=
  fold_right (fun a b => match a, b with ENaN, _ => b | _, ENaN => a | _, _ => emin a b end) ENaN l.
Definition nanmax (l : list ext) : ext :=
  fold_right (fun a b => match a, b with ENaN, _ => b | _, ENaN => a | _, _ => emax a b end) ENaN l.
Definition totals_min_max (rows : list trow) : ext * ext := (nanmin (map r_min rows), nanmax (map r_max rows)).

(** ** Histories of calls *)
Inductive cop :=
| CFit (d : cdata) | CTransform (m : cmetric) (xs : list xval) | CSplits | CStatus | CTable | CInformation
| CToJson (p : Z) | CReadJson (p : Z)
| CSetParams (user : option (container * list Z)) (fixed : option (bool * list bool))
| CBuild (valid totals : bool)
| CPlot (valid : bool) | CAnalysis (valid : bool)
| CStatistic                     (* binning_table.iv, woe *)
| CQualityScore.

(** [CVTable rows]: what build() shows: split points, rows and, if asked, the Min and Max of the Totals row. *)
Inductive cvalue := CVNone | CVAnswer (a : canswer) | CVSplits (s : option (list Z)) | CVStatus (s : option Z)
| CVTable (t : option ctable) | CVInfo (nref : nat)
| CVBuild (splits : list Z) (rows : list trow) (tot : option (ext * ext)).

Definition cworld := (cobj * cfsys)%type.
Definition c_on_table (w : cworld) (f : ctable -> ctable * res cvalue) : cworld * res cvalue :=
  if negb (co_fitted (fst w)) then (w, Err NotFitted) else
  match co_table (fst w) with
  | None => (w, Err OtherError)
  | Some t => let (t', r) := f t in ((c_set_table (fst w) (Some t'), snd w), r)
  end.
Definition cflags (t : ctable) (b a : bool) : ctable :=
  mkCT (ct_special t) (ct_special_c t) (ct_splits t) (ct_splits_c t) (ct_rows t) (ct_min t) (ct_max t) (ct_int t)
       (ct_others_c t) (ct_user t) b a.
Definition c_unit_res (r : res unit) : res cvalue := match r with Ok _ => Ok CVNone | Err k => Err k end.

Definition cstep (e : cenv) (w : cworld) (c : cop) : cworld * res cvalue :=
  let (o, fs) := w in
  match c with
  | CFit d => let (o', r) := cfit e d o in ((o', fs), c_unit_res r)
  | CTransform m xs => (w, match ctransform e o m xs with Ok a => Ok (CVAnswer a) | Err k => Err k end)
  | CSplits => (w, if negb (co_fitted o) then Err NotFitted else Ok (CVSplits (option_map snd (co_splits o))))
  | CStatus => (w, if negb (co_fitted o) then Err NotFitted else Ok (CVStatus (co_status o)))
  | CTable => (w, if negb (co_fitted o) then Err NotFitted else Ok (CVTable (co_table o)))          (* 969-979 *)
  | CInformation => (w, if negb (co_fitted o) then Err NotFitted else Ok (CVInfo (co_nref o)))
  | CToJson p => let (fs', r) := cto_json o fs p in ((o, fs'), c_unit_res r)
  | CReadJson p => let (o', r) := cread_json o fs p in ((o', fs), c_unit_res r)
  | CSetParams u f => ((mkCO u f (co_nref o) (co_old o) (co_status o) (co_splits o) (co_rows o)
                             (co_table o) (co_fitted o), fs), Ok CVNone)
  | CBuild valid tot => c_on_table w (fun t =>                          (* binning_statistics.py:1611-1698 *)
      if valid then (cflags t true (ct_analyzed t),
                     Ok (CVBuild (ct_splits t) (ct_rows t) (if tot then Some (totals_min_max (ct_rows t)) else None)))
      else (t, Err ValueError))
  | CPlot valid => c_on_table w (fun t =>                               (* 1738 *)
      if negb (ct_built t) then (t, Err NotFitted) else (t, if valid then Ok CVNone else Err ValueError))
  | CAnalysis valid => c_on_table w (fun t =>                           (* 1974, 2049 *)
      if negb (ct_built t) then (t, Err NotFitted)
      else if valid then (cflags t (ct_built t) true, Ok CVNone) else (t, Err ValueError))
  | CStatistic => c_on_table w (fun t => (t, if negb (ct_built t) then Err NotFitted else Ok CVNone))    (* 2061, 2082 *)
  | CQualityScore => c_on_table w (fun t => (t, if negb (ct_analyzed t) then Err NotFitted else Ok CVNone)) (* 2097 *)
  end.

Fixpoint cexec (e : cenv) (w : cworld) (h : list cop) : cworld * list (res cvalue) :=
  match h with
  | [] => (w, [])
  | c :: r => let (w', v) := cstep e w c in let (w'', l) := cexec e w' r in (w'', v :: l)
  end.
