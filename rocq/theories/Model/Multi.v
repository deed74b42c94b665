(** Multiclass target: preprocessing, prebin statistics per class, the CP model of multiclass_cp.py,
    merging (multiclass_bin_info).
    Class labels are integers. Tables are stored as one column per class (the code keeps 2-D arrays with
    one column per class). Not modelled: min_bin_size / max_bin_size (multiclass_cp.py:73-75 passes the
    prebins x classes matrix as n_records), split_digits, outlier detector. *)
From Coq Require Import List ZArith Bool Arith.
From Verif Require Import Model.Arr Model.Core Model.CP.
Import ListNotations.
Open Scope Z_scope.

(** One input record: x, class label (None: NaN). The code applies the same masks to the two arrays
    (preprocessing.py:188-228). *)
Record mrec := { m_x : xval; m_y : option Z }.
(** preprocessing.py:188-191 *)
Definition m_missing (r : mrec) : bool :=
  x_isnull (m_x r) || match m_y r with None => true | Some _ => false end.
(** preprocessing.py:203-228 *)
Definition m_special (sp : special) (r : mrec) : bool :=
  match sp with SpNone => false | _ => isin (flat_codes sp) (m_x r) end.
Definition m_clean (sp : special) (r : mrec) : bool := negb (m_missing r) && negb (m_special sp r).

(** [np.unique]: sorted, without duplicates *)
Fixpoint insert_unique (z : Z) (l : list Z) : list Z :=
  match l with
  | [] => [z]
  | a :: r => if z <? a then z :: l else if z =? a then l else a :: insert_unique z r
  end.
Definition np_unique (l : list Z) : list Z := fold_right insert_unique [] l.

(** [y == cl] (NaN is equal to no class) *)
Definition is_class (cl : Z) (r : mrec) : bool :=
  match m_y r with Some y => y =? cl | None => false end.
(** binning_statistics.py:111-120, first component: [np.count_nonzero(y == cl)] *)
Definition class_count (cl : Z) (l : list mrec) : Z := Z.of_nat (count_true (map (is_class cl) l)).

(** one-vs-rest view of the clean records for class [cl]: event iff y == cl (multiclass_binning.py:798-805) *)
Definition one_vs_rest (cl : Z) (l : list mrec) : list csample :=
  map (fun r => {| cx := num (m_x r); c0 := negb (is_class cl r); cw := 1 |}) l.

(** (n_nonevent[:, c], n_event[:, c]) for every class c: multiclass_binning.py:794-805 *)
Definition class_cols (splits : list Z) (classes : list Z) (data : list mrec) : list (list Z * list Z) :=
  map (fun cl => (counts 1 (digitize splits) true (one_vs_rest cl data) (S (length splits)),
                  counts 1 (digitize splits) false (one_vs_rest cl data) (S (length splits)))) classes.
(** multiclass_binning.py:796, 807: mask_remove *)
Definition remove_mask_m (n_bins : nat) (cols : list (list Z * list Z)) : list bool :=
  fold_left (fun m c => mor m (map2 (fun a b => (a =? 0) || (b =? 0)) (fst c) (snd c))) cols (repeat false n_bins).

Record mprebins := { mp_splits : list Z; mp_cols : list (list Z * list Z); mp_fixed : option (list bool);
                     mp_user : option (list Z); mp_nref : nat }.

(** multiclass_binning.py:784-840. [None]: out of fuel. *)
Fixpoint compute_prebins_m (fuel : nat) (classes : list Z) (data : list mrec) (fixed : option (list bool))
    (user : option (list Z)) (nref : nat) (splits : list Z) : option (res mprebins) :=
  match fuel with
  | O => None
  | S fuel' =>
    match splits with
    | [] => Some (Ok {| mp_splits := []; mp_cols := []; mp_fixed := fixed; mp_user := user; mp_nref := nref |})
    | _ =>
      let cols := class_cols splits classes data in
      let mask_remove := remove_mask_m (S (length splits)) cols in
      if any mask_remove then
        let ms := mask_splits mask_remove in
        match fixed with
        | Some f => if any (mand f ms) then Some (Err ValueError)
                    else compute_prebins_m fuel' classes data (Some (select (mnot ms) f))
                           (option_map (select (mnot ms)) user) (S nref) (select (mnot ms) splits)
        | None => compute_prebins_m fuel' classes data None user (S nref) (select (mnot ms) splits)
        end
      else Some (Ok {| mp_splits := splits; mp_cols := cols; mp_fixed := fixed; mp_user := user; mp_nref := nref |})
    end
  end.

(** binning_statistics.py:153-165: the special rows, column of class [cl] *)
Definition special_col (sp : special) (l : list mrec) (cl : Z) : list Z :=
  match sp with
  | SpDict d => map (fun kv => class_count cl (filter (fun r => isin (snd kv) (m_x r)) l)) d
  | _ => [class_count cl l]
  end.
(** binning_statistics.py:264-285, column of one class: [n] is n_event[:, c], or the class total
    if there are no splits *)
Definition multi_col (sol : list bool) (n : list Z) (sp_col : list Z) (miss : Z) : option (list Z) :=
  let core := match sol with
              | [] => match n with [] => None | v :: _ => Some [v] end
              | _ => merge_loop 0 sol n
              end in
  option_map (fun rows => rows ++ sp_col ++ [miss]) core.
Fixpoint all_some {A} (l : list (option A)) : option (list A) :=
  match l with
  | [] => Some []
  | Some a :: r => option_map (cons a) (all_some r)
  | None :: _ => None
  end.
(** [n_event_special[0]] exists (binning_statistics.py:277) *)
Definition special_nonempty (sp : special) (classes : list Z) : bool :=
  match sp with SpDict d => negb (Nat.eqb (length d) 0) | _ => negb (Nat.eqb (length classes) 0) end.

Record mfitted := { mf_splits : list Z; mf_classes : list Z; mf_solution : list bool;
                    mf_cols : list (list Z) (* self._n_event, one column per class *); mf_prebins : mprebins }.

(** multiclass_binning.py:545-660 and 665-676, 775: [solver] stands for the optimiser:
    prebin counts per class -> solution vector. *)
Definition fit_multi (solver : list (list Z * list Z) -> list bool) (sp : special) (fixed : option (list bool))
    (user : option (list Z)) (splits0 : list Z) (rs : list mrec) : option (res mfitted) :=
  let clean := filter (m_clean sp) rs in
  let classes := np_unique (map (fun r => match m_y r with Some y => y | None => 0 end) clean) in
  if (100 <? length classes)%nat then Some (Err ValueError) else
  match compute_prebins_m (S (length splits0)) classes clean fixed user 0 splits0 with
  | None => None
  | Some (Err e) => Some (Err e)
  | Some (Ok pb) =>
    let sol := match mp_splits pb with [] => [] | _ => solver (mp_cols pb) end in
    let so := match mp_splits pb with [] => [] | _ => select (init sol) (mp_splits pb) end in
    let ev := match mp_splits pb with
              | [] => map (fun cl => [class_count cl clean]) classes
              | _ => map snd (mp_cols pb)
              end in
    if special_nonempty sp classes then
      match all_some (map2 (fun cl n => multi_col sol n (special_col sp (filter (m_special sp) rs) cl)
                                          (class_count cl (filter m_missing rs))) classes ev) with
      | None => Some (Err IndexError)
      | Some cols => Some (Ok {| mf_splits := so; mf_classes := classes; mf_solution := sol; mf_cols := cols;
                                 mf_prebins := pb |})
      end
    else Some (Err IndexError)
  end.

(** ** The constraint model: multiclass_cp.py:41-124 *)

(** multiclass_cp.py:77-105. The "peak_heuristic" / "valley_heuristic" tests at 99 and 103 compare the whole
    list of trends with a string, so those branches are never taken; "concave" and "convex" have no branch. *)
Definition m_trend (n : nat) (D : mat) (M : Z) (md0 : bool) (t : trend) (X : mat) : Prop :=
  match t with
  | TAscending => ascending n D M md0 X
  | TDescending => descending n D M md0 X
  | TPeak => exists y t, change_point n y t /\ peak n D M y X
  | TValley => exists y t, change_point n y t /\ valley n D M y X
  | _ => True
  end.

Record mc_cfg := { mg_trends : list trend (* per class *); mg_min_bins : option Z; mg_max_bins : option Z;
  mg_fixed : option (list bool); mg_pol : pvalue_policy; mg_test : Z * Z -> Z * Z -> bool;
  mg_md : option Z (* int(min_event_rate_diff * M), None if min_event_rate_diff == 0 *) }.
Definition md_is0 (md : option Z) : bool := match md with None => true | Some _ => false end.

(** constraints contributed by one class: its trend (77-105) and its violations (107-115),
    D, V from model_data.py:177-242 *)
Definition class_constr (n : nat) (M : Z) (g : mc_cfg) (X : mat) (t : trend) (c : list Z * list Z) : Prop :=
  m_trend n (rate_mat M (fst c) (snd c)) M (md_is0 (mg_md g)) t X /\
  violation_constrs (pviol_of (mg_pol g) (mg_test g) (fst c) (snd c)) X /\
  violation_constrs (dviol_of (mg_md g) M (fst c) (snd c)) X.

Definition m_feasible (n : nat) (M : Z) (cols : list (list Z * list Z)) (g : mc_cfg) (X : mat) : Prop :=
  bool_vars n X /\ unique_assignment n X /\ continuity n X /\
  min_max_bins n (mg_min_bins g) (mg_max_bins g) X /\
  Forall2 (class_constr n M g X) (mg_trends g) cols /\
  fixed_splits n (mg_fixed g) X.
(** multiclass_cp.py:60-63: [phi totals] is the scaled Jeffrey term of a candidate bin of the class *)
Definition m_objective (n : nat) (phi : Z * Z -> Z * Z -> Z) (cols : list (list Z * list Z)) (X : mat) : Z :=
  zsum (map (fun c => objective n (div_mat (phi (zsum (fst c), zsum (snd c))) (fst c) (snd c)) X) cols).
