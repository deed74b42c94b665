(** Continuous target: preprocessing, prebin statistics, the CP model of continuous_cp.py, merging
    (continuous_bin_info) and transform.
    Targets are integers in units of 1/[yu] (finite doubles have a common denominator); weights are
    integers. Float rounding is not modelled. *)
From Coq Require Import List ZArith Bool Arith QArith Qabs.
From Verif Require Import Model.Arr Model.Core Model.CP.
Import ListNotations.
Open Scope Z_scope.

(** One input record: x, target (None: NaN), weight. The code keeps three parallel arrays and applies
    the same masks to all of them (preprocessing.py:188-228); here they are one list of records. *)
Record krec := { k_x : xval; k_y : option Z; k_w : Z }.

(** preprocessing.py:188-191 *)
Definition k_missing (r : krec) : bool :=
  x_isnull (k_x r) || match k_y r with None => true | Some _ => false end.
(** preprocessing.py:203-228: special mask (no special records when special_codes is None) *)
Definition k_special (sp : special) (r : krec) : bool :=
  match sp with SpNone => false | _ => isin (flat_codes sp) (k_x r) end.
Definition k_clean (sp : special) (r : krec) : bool := negb (k_missing r) && negb (k_special sp r).

(** weighted target [sw * y] of a record (continuous_binning.py:690, 859, 872, 921;
    binning_statistics.py:191, 205) *)
Definition k_prod (r : krec) : option Z := option_map (Z.mul (k_w r)) (k_y r).

(** A clean record: value, weighted target, weight. *)
Record ksample := { s_x : Z; s_p : Z; s_w : Z }.
Definition to_ksample (r : krec) : ksample :=
  {| s_x := num (k_x r); s_p := match k_prod r with Some p => p | None => 0 end; s_w := k_w r |}.

(** Extended numbers for the min / max columns. *)
Inductive ext := NInf | Fin (z : Z) | PInf | ENaN.
(** Python [min(a, b)] / [max(a, b)] on floats (NaN never reaches it here) *)
Definition emin (a b : ext) : ext :=
  match a, b with
  | NInf, _ | _, NInf => NInf
  | PInf, e | e, PInf => e
  | Fin x, Fin y => Fin (Z.min x y)
  | _, _ => ENaN
  end.
Definition emax (a b : ext) : ext :=
  match a, b with
  | PInf, _ | _, PInf => PInf
  | NInf, e | e, NInf => e
  | Fin x, Fin y => Fin (Z.max x y)
  | _, _ => ENaN
  end.
(** [np.min], [np.max] of a non-empty array *)
Fixpoint np_min (l : list Z) : Z := match l with [] => 0 | [a] => a | a :: r => Z.min a (np_min r) end.
Fixpoint np_max (l : list Z) : Z := match l with [] => 0 | [a] => a | a :: r => Z.max a (np_max r) end.

(** Prebin statistics: n_records, sums, ssums, n_zeros, min_t, max_t (continuous_binning.py:909-928;
    six parallel arrays in the code; [stds] is computed there but not used after merging). *)
Record cstat := { c_n : Z; c_sum : Z; c_ss : Z; c_zero : Z; c_min : ext; c_max : ext }.
(** continuous_binning.py:914-928, one prebin; the records of the prebin are [l] *)
Definition stat_of (l : list ksample) : cstat :=
  let p := map s_p l in
  {| c_n := zsum (map s_w l); c_sum := zsum p; c_ss := zsum (map (fun v => v * v) p);
     c_zero := Z.of_nat (count_true (map (Z.eqb 0) p));
     c_min := match p with [] => NInf | _ => Fin (np_min p) end;
     c_max := match p with [] => PInf | _ => Fin (np_max p) end |}.
Definition bin_records (splits : list Z) (data : list ksample) (i : nat) : list ksample :=
  filter (fun s => Nat.eqb (digitize splits (s_x s)) i) data.
Definition stats (splits : list Z) (data : list ksample) : list cstat :=
  map (fun i => stat_of (bin_records splits data i)) (seq 0 (S (length splits))).

Record cprebins := { cp_splits : list Z; cp_stats : list cstat; cp_fixed : option (list bool);
                     cp_user : option (list Z); cp_nref : nat }.

(** continuous_binning.py:897-967 (numerical dtype). The recursive call on an empty list of splits
    returns three values where eight are unpacked (900, 963-964): a ValueError. [None]: out of fuel. *)
Fixpoint compute_prebins_c (fuel : nat) (data : list ksample) (fixed : option (list bool))
    (user : option (list Z)) (nref : nat) (splits : list Z) : option (res cprebins) :=
  match fuel with
  | O => None
  | S fuel' =>
    match splits with
    | [] => Some (Err ValueError)
    | _ =>
      let st := stats splits data in
      let mask_remove := map (fun c => c_n c =? 0) st in
      if any mask_remove then
        let ms := mask_splits mask_remove in
        match fixed with
        | Some f => if any (mand f ms) then Some (Err ValueError)
                    else compute_prebins_c fuel' data (Some (select (mnot ms) f))
                           (option_map (select (mnot ms)) user) (S nref) (select (mnot ms) splits)
        | None => compute_prebins_c fuel' data None user (S nref) (select (mnot ms) splits)
        end
      else Some (Ok {| cp_splits := splits; cp_stats := st; cp_fixed := fixed; cp_user := user;
                       cp_nref := nref |})
    end
  end.

(** continuous_binning.py:881-895: [_prebinning_refinement] handles an initially empty list itself. *)
Definition refine_c (data : list ksample) (fixed : option (list bool)) (user : option (list Z))
    (splits : list Z) : option (res cprebins) :=
  match splits with
  | [] => Some (Ok {| cp_splits := []; cp_stats := []; cp_fixed := fixed; cp_user := user; cp_nref := 0 |})
  | _ => compute_prebins_c (S (length splits)) data fixed user 0 splits
  end.

(** ** Table rows *)

(** How the code obtains an entry of the Std column: [nstd] on merged moments
    (binning_statistics.py:288-289), [np.std] of an array, the literal 0, or None (NaN after astype). *)
Inductive stdcol := ByMoments (s ss n : Z) | NpStd (l : list Z) | StdZero | StdNaN.
Record trow := { r_n : Z; r_sum : option Z; r_zero : Z; r_min : ext; r_max : ext; r_std : stdcol }.

(** One step of the accumulators, binning_statistics.py:330-335, and the row appended at 315-321. *)
Definition acc0 : cstat := {| c_n := 0; c_sum := 0; c_ss := 0; c_zero := 0; c_min := PInf; c_max := NInf |}.
Definition acc_add (a c : cstat) : cstat :=
  {| c_n := a.(c_n) + c.(c_n); c_sum := a.(c_sum) + c.(c_sum); c_ss := a.(c_ss) + c.(c_ss);
     c_zero := a.(c_zero) + c.(c_zero); c_min := emin a.(c_min) c.(c_min); c_max := emax a.(c_max) c.(c_max) |}.
Definition row_of_acc (a c : cstat) : trow :=
  {| r_n := c.(c_n) + a.(c_n); r_sum := Some (c.(c_sum) + a.(c_sum)); r_zero := c.(c_zero) + a.(c_zero);
     r_min := emin a.(c_min) c.(c_min); r_max := emax a.(c_max) c.(c_max);
     r_std := ByMoments (c.(c_sum) + a.(c_sum)) (c.(c_ss) + a.(c_ss)) (c.(c_n) + a.(c_n)) |}.
(** binning_statistics.py:313-335; None: IndexError *)
Fixpoint merge_stats (acc : cstat) (sol : list bool) (st : list cstat) : option (list trow) :=
  match sol, st with
  | [], _ => Some []
  | b :: s, c :: r =>
      if b then option_map (cons (row_of_acc acc c)) (merge_stats acc0 s r)
      else merge_stats (acc_add acc c) s r
  | _ :: _, [] => None
  end.

(** NaN-aware reductions of an array of weighted targets *)
Fixpoint nsum (l : list (option Z)) : option Z :=
  match l with
  | [] => Some 0
  | Some a :: r => option_map (Z.add a) (nsum r)
  | None :: _ => None
  end.
Fixpoint somes {A} (l : list (option A)) : list A :=
  match l with [] => [] | Some a :: r => a :: somes r | None :: r => somes r end.
Definition has_nan (l : list (option Z)) : bool := existsb (fun o => match o with None => true | _ => false end) l.
Definition nmin (l : list (option Z)) : ext := if has_nan l then ENaN else Fin (np_min (somes l)).
Definition nmax (l : list (option Z)) : ext := if has_nan l then ENaN else Fin (np_max (somes l)).
Definition nstd_of (l : list (option Z)) : stdcol := if has_nan l then StdNaN else NpStd (somes l).
Definition nzeros (l : list (option Z)) : Z :=
  Z.of_nat (count_true (map (fun o => match o with Some a => Z.eqb 0 a | None => false end) l)).

(** The attributes of the object that [fit] only overwrites when there are missing records
    (continuous_binning.py:864-867; initially None). *)
Record stale := { old_std : stdcol; old_min : ext; old_max : ext }.
Definition fresh : stale := {| old_std := StdNaN; old_min := ENaN; old_max := ENaN |}.

(** continuous_binning.py:858-867 *)
Definition missing_row (old : stale) (l : list krec) : trow :=
  let p := map k_prod l in
  {| r_n := zsum (map k_w l); r_sum := nsum p; r_zero := nzeros p;
     r_min := match l with [] => old_min old | _ => nmin p end;
     r_max := match l with [] => old_max old | _ => nmax p end;
     r_std := match l with [] => old_std old | _ => nstd_of p end |}.
(** binning_statistics.py:203-219 *)
Definition special_row (l : list krec) : trow := missing_row fresh l.
(** binning_statistics.py:184-202, one dict entry ([if n_records]: non-zero weight). *)
Definition dict_row (l : list krec) : trow :=
  let p := map k_prod l in
  let n := zsum (map k_w l) in
  {| r_n := n; r_sum := nsum p; r_zero := nzeros p;
     r_min := if n =? 0 then Fin 0 else nmin p; r_max := if n =? 0 then Fin 0 else nmax p;
     r_std := if n =? 0 then StdZero else nstd_of p |}.
(** binning_statistics.py:168-222. With a dict and no special record at all, [std_special] is None
    and the first [append] raises AttributeError. *)
Definition special_rows (sp : special) (l : list krec) : res (list trow) :=
  match sp with
  | SpDict d =>
      match l, d with
      | [], _ :: _ => Err OtherError
      | _, _ => Ok (map (fun kv => dict_row (filter (fun r => isin (snd kv) (k_x r)) l)) d)
      end
  | _ => Ok [special_row l]
  end.
(** continuous_binning.py:688-696 and binning_statistics.py:337-343: no splits. *)
Definition single_row (l : list ksample) : trow :=
  let c := stat_of l in
  {| r_n := c_n c; r_sum := Some (c_sum c); r_zero := c_zero c; r_min := c_min c; r_max := c_max c;
     r_std := NpStd (map s_p l) |}.

Record cfitted := { cf_splits : list Z; cf_solution : list bool; cf_rows : list trow; cf_prebins : cprebins }.

(** ** Fit: continuous_binning.py:548-739, numerical dtype, no outlier detector.
    [solver]: prebin statistics -> solution vector. [splits0]: proposed by prebinning, or the sorted
    user splits. user_splits = [] raises UnboundLocalError ([ssums] is not assigned, 627-631, 679). *)
Definition fit_cont (old : stale) (solver : list cstat -> list bool) (sp : special)
    (fixed : option (list bool)) (user : option (list Z)) (splits0 : list Z) (rs : list krec)
  : option (res cfitted) :=
  match user with
  | Some [] => Some (Err OtherError)
  | _ =>
    match special_rows sp (filter (k_special sp) rs) with
    | Err e => Some (Err e)
    | Ok srows =>
      let data := map to_ksample (filter (k_clean sp) rs) in
      let mrow := missing_row old (filter k_missing rs) in
      match refine_c data fixed user splits0 with
      | None => None
      | Some (Err e) => Some (Err e)
      | Some (Ok pb) =>
        let n := length (cp_stats pb) in
        let sol := if (n <=? 1)%nat then repeat false (length (cp_splits pb)) else solver (cp_stats pb) in
        let so := optimal_splits n (cp_splits pb) sol in
        match sol, data with
        | [], [] => Some (Err ValueError)  (* np.min of an empty array, 695 *)
        | [], _ => Some (Ok {| cf_splits := so; cf_solution := sol;
                               cf_rows := single_row data :: srows ++ [mrow]; cf_prebins := pb |})
        | _, _ =>
          match merge_stats acc0 sol (cp_stats pb) with
          | None => Some (Err IndexError)
          | Some rows => Some (Ok {| cf_splits := so; cf_solution := sol; cf_rows := rows ++ srows ++ [mrow];
                                     cf_prebins := pb |})
          end
        end
      end
    end
  end.

(** ** Transform: transformations.py:388-461 (numerical). [mean_col]: the metric values, one per table
    row (in units 1/yu). Lines 427-429 truncate the table to the clean bins unless "empirical" is
    requested; both cases give the same value on the rows used. *)
Definition row_mean (r : trow) : option Q :=
  match r_sum r with
  | Some s => if 0 <? r_n r then Some (inject_Z s / inject_Z (r_n r))%Q else Some 0%Q
  | None => if 0 <? r_n r then None else Some 0%Q
  end.
Definition mean_col (full : bool) (n_bins : nat) (rows : list trow) : list (option Q) :=
  map row_mean (if full then rows else firstn n_bins rows).
Definition is_empirical {V} (a : marg V) : bool := match a with Empirical => true | _ => false end.
(** [unknown] is irrelevant for a numerical variable (every clean value gets a bin). *)
Definition transform_mean (f : cfitted) (sp : special) (ms mm : marg (option Q)) (unknown : option Q) (x : xval)
  : res (option Q) :=
  transform1_num (cf_splits f) sp MValue ms mm
    (mean_col (is_empirical ms || is_empirical mm) (S (length (cf_splits f))) (cf_rows f)) unknown x.

(** ** The constraint model: continuous_cp.py *)

(** model_data.py:263-272: scaled mean [U] of the candidate bin; [astype(int64)] truncates towards 0.
    Sums are in units 1/[yu]. *)
Definition mean_mat (M yu : Z) (n s : list Z) : mat :=
  fun i j => Z.quot (M * cum_mat s i j) (yu * cum_mat n i j).
(** model_data.py:256,265: scaled |mean - overall mean| *)
Definition norm_mat (M yu : Z) (n s : list Z) : mat :=
  fun i j => Z.quot (M * Z.abs (cum_mat s i j * zsum n - zsum s * cum_mat n i j)) (yu * cum_mat n i j * zsum n).

(** continuous_cp.py:130-139 / 141-150, one pair *)
Definition c_asc (U X : mat) (i z : nat) : Prop :=
  X z z = 1 -> X i i = 1 -> tele U X z + U z z * X z z - U i i * X i i - tele U X i <= 0.
Definition c_desc (U X : mat) (i z : nat) : Prop :=
  X z z = 1 -> X i i = 1 -> tele U X i + U i i * X i i - U z z * X z z - tele U X z <= 0.
Definition c_ascending (n : nat) (U X : mat) : Prop := forall i z, (1 <= i < n)%nat -> (z < i)%nat -> c_asc U X i z.
Definition c_descending (n : nat) (U X : mat) : Prop := forall i z, (1 <= i < n)%nat -> (z < i)%nat -> c_desc U X i z.
(** continuous_cp.py:152-163, 165-176 *)
Definition c_concave (n : nat) (U X : mat) : Prop :=
  forall i j k, (2 <= i < n)%nat -> (1 <= j < i)%nat -> (k < j)%nat -> X k k = 1 -> X j j = 1 -> X i i = 1 ->
    - row_rate U X i + 2 * row_rate U X j - row_rate U X k >= 0.
Definition c_convex (n : nat) (U X : mat) : Prop :=
  forall i j k, (2 <= i < n)%nat -> (1 <= j < i)%nat -> (k < j)%nat -> X k k = 1 -> X j j = 1 -> X i i = 1 ->
    row_rate U X i - 2 * row_rate U X j + row_rate U X k >= 0.
(** [max([abs(U[i][j]) for i in range(n) for j in range(i + 1)])] (179, 199) *)
Definition max_abs (n : nat) (U : mat) : Z :=
  fold_right Z.max 0 (flat_map (fun i => map (fun j => Z.abs (U i j)) (seq 0 (S i))) (seq 0 n)).
(** continuous_cp.py:178-196, 198-216 *)
Definition c_peak (n : nat) (U : mat) (y : nat -> Z) (X : mat) : Prop :=
  let M := max_abs n U in
  forall i z, (1 <= i < n)%nat -> (z < i)%nat -> X z z = 1 -> X i i = 1 ->
    M * (y i + y z) + U z z * X z z + tele U X z - tele U X i - U i i * X i i >= 0 /\
    M * (2 - y i - y z) + U i i * X i i + tele U X i - tele U X z - U z z * X z z >= 0.
Definition c_valley (n : nat) (U : mat) (y : nat -> Z) (X : mat) : Prop :=
  let M := max_abs n U in
  forall i z, (1 <= i < n)%nat -> (z < i)%nat -> X z z = 1 -> X i i = 1 ->
    M * (y i + y z) + U i i * X i i + tele U X i - tele U X z - U z z * X z z >= 0 /\
    M * (2 - y i - y z) + U z z * X z z + tele U X z - tele U X i - U i i * X i i >= 0.
(** continuous_cp.py:218-237, 239-258 *)
Definition c_peak_heuristic (n tc : nat) (U X : mat) : Prop :=
  (forall i z, (1 <= i < tc)%nat -> (z < i)%nat -> c_asc U X i z) /\
  (forall i z, (tc <= i < n)%nat -> (tc <= z < i)%nat -> c_desc U X i z).
Definition c_valley_heuristic (n tc : nat) (U X : mat) : Prop :=
  (forall i z, (1 <= i < tc)%nat -> (z < i)%nat -> c_desc U X i z) /\
  (forall i z, (tc <= i < n)%nat -> (tc <= z < i)%nat -> c_asc U X i z).

(** continuous_cp.py:86-115 (change point variables at 99-102 as in cp.py:136-138) *)
Definition c_trend (n : nat) (U : mat) (t : trend) (X : mat) : Prop :=
  match t with
  | TNone => True
  | TAscending => c_ascending n U X
  | TDescending => c_descending n U X
  | TConcave => c_concave n U X
  | TConvex => c_convex n U X
  | TPeak => exists y t, change_point n y t /\ c_peak n U y X
  | TValley => exists y t, change_point n y t /\ c_valley n U y X
  | TPeakHeuristic tc => c_peak_heuristic n tc U X
  | TValleyHeuristic tc => c_valley_heuristic n tc U X
  end.

(** model_data.py:287-297: violation lists. The tests are evaluated on the unscaled statistics of the two
    candidate bins; [test] stands for the t-test on (records, sum, sum of squares). *)
Definition cand (n s ss : list Z) (i r : nat) : Z * Z * Z := (cum_mat n i r, cum_mat s i r, cum_mat ss i r).
Definition c_pviol (p : pvalue_policy) (test : Z * Z * Z -> Z * Z * Z -> bool) (n s ss : list Z) : list viol :=
  let bad := fun i r j k => test (cand n s ss i r) (cand n s ss j k) in
  match p with
  | PVNone => []
  | PVAll => viol_all (length n) bad
  | PVConsecutive => viol_consecutive (length n) bad
  end.
(** [abs(mean1 - mean2) < min_mean_diff] (model_data.py:104 on UP), d in the units of the sums *)
Definition mean_diff_bad (d : Q) (n s : list Z) (i r j k : nat) : bool :=
  negb (Qle_bool d (Qabs (inject_Z (cum_mat s i r) / inject_Z (cum_mat n i r)
                               - inject_Z (cum_mat s j k) / inject_Z (cum_mat n j k)))).
Definition c_dviol (d : option Q) (n s : list Z) : list viol :=
  match d with None => [] | Some q => viol_consecutive (length n) (mean_diff_bad q n s) end.

Record cc_cfg := { cg_trend : trend; cg_min_bins : option Z; cg_max_bins : option Z;
  cg_min_size : option Z; cg_max_size : option Z; cg_fixed : option (list bool);
  cg_pviol : list viol; cg_dviol : list viol }.

(** continuous_cp.py:42-128. With gamma, pmin and pmax are declared (61-62) but no constraint mentions
    them: they only range over [0, total]. *)
Definition c_feasible (n : nat) (U : mat) (cnt : nat -> Z) (g : cc_cfg) (X : mat) : Prop :=
  bool_vars n X /\ unique_assignment n X /\ continuity n X /\
  min_max_bins n (cg_min_bins g) (cg_max_bins g) X /\
  min_max_bin_size n (cg_min_size g) (cg_max_size g) cnt X /\
  c_trend n U (cg_trend g) X /\
  violation_constrs (cg_pviol g) X /\ violation_constrs (cg_dviol g) X /\
  fixed_splits n (cg_fixed g) X.
(** continuous_cp.py:58-67: objective with gamma; [reg] = ceil(M * gamma / total) *)
Definition c_gamma_objective (n : nat) (V X : mat) (reg pmin pmax : Z) : Z :=
  objective n V X - reg * (pmax - pmin).
