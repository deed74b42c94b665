(** The MulticlassOptimalBinning object as a state machine: fit, transform, splits, status, classes, binning_table, to_json,
    read_json and set_params of the user splits, in any order, any number of times, succeeding or failing.
    optbinning/binning/multiclass_binning.py, base.py. The computations of one fit are those of Model/Multi.v. *)
From Coq Require Import List ZArith Reals Bool Arith.
From Verif Require Import Model.Arr Model.Core Model.Multi Model.MultiT.
From Verif Require Import Model.Lifecycle.
Import ListNotations.
Open Scope Z_scope.

Definition muser := option (container * list Z).
Definition mfixed := option (bool * list bool).     (* bool: a numpy array (its entries are not Python bools) *)

(** MulticlassBinningTable's arguments (binning_statistics.py:1127-1132); n_event by columns *)
Record mtable := mkMT { mt_special : special; mt_special_c : container; mt_splits : list Z; mt_cols : list (list Z);
                        mt_classes : list Z }.
Record mjson := mkMJ { mj_special : special; mj_splits : list Z; mj_cols : list (list Z); mj_classes : list Z }.
Inductive mfile := MJson (j : mjson) | MTruncated.
Definition mfsys := Z -> option mfile.
Definition mwrite (fs : mfsys) (p : Z) (f : mfile) : mfsys := fun q => if q =? p then Some f else fs q.

(** Constructor parameters that no method changes, and the oracles: the prebinning method (on the clean records) and the
    optimiser (user_splits_fixed, number of samples, prebin counts per class; it may raise, also for a list of trends of
    the wrong length, multiclass_binning.py:704-706). *)
Record menv := mkME {
  me_special : special; me_special_c : container;
  me_prebin : list mrec -> res (list Z);
  me_solver : option (list bool) -> nat -> list (list Z * list Z) -> res (Z * list bool) }.

(** The mutable attributes (multiclass_binning.py:352-385): user_splits, user_splits_fixed, _n_refinements, _classes, _status,
    _splits_optimal, _n_event, _binning_table, _is_fitted. *)
Record mobj := mkMO {
  mo_user : muser; mo_fixed : mfixed; mo_nref : nat;
  mo_classes : option (list Z);
  mo_status : option Z;
  mo_splits : option (list Z);
  mo_cols : option (list (list Z));
  mo_table : option mtable;
  mo_fitted : bool }.
Definition mnew (user : muser) (fixed : mfixed) : mobj := mkMO user fixed 0 None None None None None false.

(** multiclass_binning.py:141-156 *)
Definition mparams_ok (user : muser) (fixed : mfixed) : bool :=
  match fixed with
  | None => true
  | Some (np, f) =>
      match user with
      | None => false
      | Some (_, u) => (negb np || (length f =? 0)%nat) && (length u =? length f)%nat
      end
  end.

(** multiclass_binning.py:784-840: as [Multi.compute_prebins_m], keeping the attributes when the call raises. *)
Record mattr := mkMA { ma_user : muser; ma_fixed : mfixed; ma_nref : nat }.
Fixpoint mprebins_st (fuel : nat) (classes : list Z) (data : list mrec) (a : mattr) (splits : list Z)
  : option (mattr * res (list Z * list (list Z * list Z))) :=
  match fuel with
  | O => None
  | S fuel' =>
    match splits with
    | [] => Some (a, Ok ([], []))
    | _ =>
      let cols := class_cols splits classes data in
      let mask_remove := remove_mask_m (S (length splits)) cols in
      if any mask_remove then
        let ms := mask_splits mask_remove in
        match ma_fixed a with
        | Some (np, f) =>
            if any (mand f ms) then Some (mkMA (ma_user a) (ma_fixed a) (S (ma_nref a)), Err ValueError)
            else mprebins_st fuel' classes data
                   (mkMA (option_map (fun cu => (NdArray, select (mnot ms) (snd cu))) (ma_user a))
                         (Some (true, select (mnot ms) f)) (S (ma_nref a))) (select (mnot ms) splits)
        | None => mprebins_st fuel' classes data (mkMA (ma_user a) None (S (ma_nref a))) (select (mnot ms) splits)
        end
      else Some (a, Ok (splits, cols))
    end
  end.

Definition m_clean_data (e : menv) (rs : list mrec) : list mrec := filter (m_clean (me_special e)) rs.
Definition m_classes_of (l : list mrec) : list Z := np_unique (map (fun r => match m_y r with Some y => y | None => 0 end) l).

(** multiclass_binning.py:606-628: n_event of the table *)
Definition m_post (e : menv) (rs : list mrec) (classes : list Z) (splits : list Z) (cols : list (list Z * list Z)) (sol : list bool)
  : res (list (list Z)) :=
  let ev := match splits with
            | [] => map (fun cl => [class_count cl (m_clean_data e rs)]) classes
            | _ => map snd cols
            end in
  if special_nonempty (me_special e) classes then
    match all_some (map2 (fun cl n => multi_col sol n (special_col (me_special e) (filter (m_special (me_special e)) rs) cl)
                                        (class_count cl (filter m_missing rs))) classes ev) with
    | None => Err IndexError
    | Some c => Ok c
    end
  else Err IndexError.

Definition m_set_attr (o : mobj) (a : mattr) (classes : option (list Z)) : mobj :=
  mkMO (ma_user a) (ma_fixed a) (ma_nref a) classes (mo_status o) (mo_splits o) (mo_cols o) (mo_table o) (mo_fitted o).
Definition m_set_result (o : mobj) (status : Z) (s : list Z) : mobj :=
  mkMO (mo_user o) (mo_fixed o) (mo_nref o) (mo_classes o) (Some status) (Some s) (mo_cols o) (mo_table o) (mo_fitted o).

(** multiclass_binning.py:606-641, after the optimiser *)
Definition m_finish (e : menv) (rs : list mrec) (o : mobj) (classes : list Z) (splits : list Z) (cols : list (list Z * list Z))
    (sol : list bool) (so : list Z) : mobj * res unit :=
  match m_post e rs classes splits cols sol with
  | Err k => (o, Err k)
  | Ok c => (mkMO (mo_user o) (mo_fixed o) (mo_nref o) (mo_classes o) (mo_status o) (mo_splits o) (Some c)
                  (Some (mkMT (me_special e) (me_special_c e) so c classes)) true, Ok tt)
  end.
(** 643-675: refinement; 677-775: optimiser *)
Definition m_refine_and_optimise (e : menv) (rs : list mrec) (o : mobj) (splits0 : list Z) : mobj * res unit :=
  let clean := m_clean_data e rs in
  let classes := m_classes_of clean in
  let o := m_set_attr o (mkMA (mo_user o) (mo_fixed o) (mo_nref o)) (Some classes) in       (* 649-650 *)
  if (100 <? length classes)%nat then (o, Err ValueError) else                              (* 652 *)
  match mprebins_st (S (length splits0)) classes clean (mkMA (mo_user o) (mo_fixed o) (mo_nref o)) splits0 with
  | None => (o, Err OtherError)                                                             (* never *)
  | Some (a, Err k) => (m_set_attr o a (Some classes), Err k)
  | Some (a, Ok (splits, cols)) =>
      let o := m_set_attr o a (Some classes) in
      match splits with
      | [] => m_finish e rs (m_set_result o 0 []) classes [] cols [] []                      (* 682-692; 0: "OPTIMAL" *)
      | _ =>
          match me_solver e (option_map snd (mo_fixed o)) (length rs) cols with
          | Err k => (o, Err k)
          | Ok (status, sol) =>
              let so := select (init sol) splits in
              m_finish e rs (m_set_result o status so) classes splits cols sol so
          end
      end
  end.
(** multiclass_binning.py:486-641. Simplifications: split_digits=None, no outlier detector, arrays of equal lengths. *)
Definition mfit (e : menv) (rs : list mrec) (o : mobj) : mobj * res unit :=
  if negb (mparams_ok (mo_user o) (mo_fixed o)) then (o, Err ValueError) else
  match mo_user o with
  | Some (_, []) => (o, Err ValueError)                                                     (* 562: check_array *)
  | Some (_, u) =>
      if negb (distinct u) then (o, Err ValueError)                                         (* 565 *)
      else m_refine_and_optimise e rs
             (mkMO (mo_user o) (option_map (fun p => (true, permuted u (snd p))) (mo_fixed o)) (mo_nref o) (mo_classes o)
                   (mo_status o) (mo_splits o) (mo_cols o) (mo_table o) (mo_fitted o)) (sorted_splits u)
  | None =>
      match me_prebin e (m_clean_data e rs) with
      | Err k => (o, Err k)
      | Ok splits0 => m_refine_and_optimise e rs o splits0
      end
  end.

(** transform (multiclass_binning.py:437-483; transformations.py:319-385), the two WoE metrics. len(None) and None.shape raise. *)
Definition mtransform (e : menv) (o : mobj) (m : mmetric) (ms mm : marg R) (xs : list xval) : res (list R) :=
  if negb (mo_fitted o) then Err NotFitted else
  match mo_splits o with
  | None => Err TypeError
  | Some s =>
      match mo_cols o with
      | None => Err OtherError
      | Some cols => all_res (map (transform1_num s (me_special e) MValue ms mm
                                     (map (mt_value m cols) (seq 0 (mt_rows cols))) 0%R) xs)
      end
  end.

(** to_json: 876-899; the file is opened before json.dump raises on a numpy array of special codes *)
Definition mto_json (o : mobj) (fs : mfsys) (p : Z) : mfsys * res unit :=
  if negb (mo_fitted o) then (fs, Err NotFitted) else
  match mo_table o with
  | None => (fs, Err OtherError)
  | Some t =>
      match mt_special t, mt_special_c t with
      | SpList _, NdArray => (mwrite fs p MTruncated, Err TypeError)
      | _, _ => (mwrite fs p (MJson (mkMJ (mt_special t) (mt_splits t) (mt_cols t) (mt_classes t))), Ok tt)
      end
  end.
(** read_json: 901-924; _is_fitted is set before the file is opened *)
Definition mread_json (o : mobj) (fs : mfsys) (p : Z) : mobj * res unit :=
  let set t := mkMO (mo_user o) (mo_fixed o) (mo_nref o) (mo_classes o) (mo_status o) (mo_splits o) (mo_cols o) t true in
  match fs p with
  | None => (set (mo_table o), Err OtherError)
  | Some MTruncated => (set (mo_table o), Err ValueError)
  | Some (MJson j) =>
      (set (Some (mkMT (mj_special j) (match mj_special j with SpList _ => NdArray | _ => PyList end)
                       (mj_splits j) (mj_cols j) (mj_classes j))), Ok tt)
  end.

Inductive mop :=
| MFit (rs : list mrec) | MTransform (m : mmetric) (ms mm : marg R) (xs : list xval)
| MSplits | MStatus | MClasses | MTable | MInformation
| MToJson (p : Z) | MReadJson (p : Z) | MSetParams (user : muser) (fixed : mfixed).
Inductive mvalue := MVNone | MVValues (l : list R) | MVSplits (s : option (list Z)) | MVStatus (s : option Z)
| MVClasses (c : option (list Z)) | MVTable (t : option mtable) | MVInfo (nref : nat).
Definition m_unit (r : res unit) : res mvalue := match r with Ok _ => Ok MVNone | Err k => Err k end.
Definition mworld := (mobj * mfsys)%type.
Definition guarded (o : mobj) (v : mvalue) : res mvalue := if negb (mo_fitted o) then Err NotFitted else Ok v.
Definition mstep (e : menv) (w : mworld) (c : mop) : mworld * res mvalue :=
  let (o, fs) := w in
  match c with
  | MFit rs => let (o', r) := mfit e rs o in ((o', fs), m_unit r)
  | MTransform m ms mm xs => (w, match mtransform e o m ms mm xs with Ok l => Ok (MVValues l) | Err k => Err k end)
  | MSplits => (w, guarded o (MVSplits (mo_splits o)))
  | MStatus => (w, guarded o (MVStatus (mo_status o)))
  | MClasses => (w, guarded o (MVClasses (mo_classes o)))
  | MTable => (w, guarded o (MVTable (mo_table o)))
  | MInformation => (w, guarded o (MVInfo (mo_nref o)))
  | MToJson p => let (fs', r) := mto_json o fs p in ((o, fs'), m_unit r)
  | MReadJson p => let (o', r) := mread_json o fs p in ((o', fs), m_unit r)
  | MSetParams u f => ((mkMO u f (mo_nref o) (mo_classes o) (mo_status o) (mo_splits o) (mo_cols o) (mo_table o) (mo_fitted o), fs),
                       Ok MVNone)
  end.
Fixpoint mexec (e : menv) (w : mworld) (h : list mop) : mworld * list (res mvalue) :=
  match h with
  | [] => (w, [])
  | c :: r => let (w', v) := mstep e w c in let (w'', l) := mexec e w' r in (w'', v :: l)
  end.
