(** The constraint system built by [BinningCP.build_model] (cp.py) as a predicate on an assignment of
    the decision variables. The CP-SAT solver itself is not modelled: a solver answer OPTIMAL/FEASIBLE
    is any assignment satisfying this predicate (trusted).
    [X i j] is the 0/1 value of x[i, j], j <= i < n. *)
From Coq Require Import List ZArith Bool.
From Verif Require Import Model.Arr.
Import ListNotations.
Open Scope Z_scope.

(** [sum([f(k) for k in range(lo, hi)])] *)
Definition sum_range (lo hi : nat) (f : nat -> Z) : Z := zsum (map f (seq lo (hi - lo))).

Definition mat := nat -> nat -> Z.

(** cp.py:282-285: Boolean variables. *)
Definition bool_vars (n : nat) (X : mat) : Prop :=
  forall i j, (i < n)%nat -> (j <= i)%nat -> X i j = 0 \/ X i j = 1.

(** cp.py:345-347 *)
Definition unique_assignment (n : nat) (X : mat) : Prop :=
  forall j, (j < n)%nat -> sum_range j n (fun i => X i j) = 1.

(** cp.py:349-352 *)
Definition continuity (n : nat) (X : mat) : Prop :=
  forall i j, (i < n)%nat -> (j < i)%nat -> X i j - X i (S j) <= 0.

(** cp.py:75-82 (without the gamma term): the objective. *)
Definition objective (n : nat) (V X : mat) : Z :=
  sum_range 0 n (fun i => V i i * X i i + sum_range 0 i (fun j => (V i j - V i (S j)) * X i j)).

(** cp.py:302-306, 354-363 *)
Definition min_max_bins (n : nat) (mn mx : option Z) (X : mat) : Prop :=
  let trace := sum_range 0 n (fun i => X i i) in
  match mn, mx with
  | Some a, Some b => exists d, 0 <= d <= b - a /\ d + trace - b = 0
  | Some a, None => trace >= a
  | None, Some b => trace <= b
  | None, None => True
  end.

(** size of the candidate bin of row i: cp.py:101,114,156,369 *)
Definition row_size (cnt : nat -> Z) (X : mat) (i : nat) : Z :=
  sum_range 0 (S i) (fun j => cnt j * X i j).

(** cp.py:308-314, 365-379 *)
Definition min_max_bin_size (n : nat) (mn mx : option Z) (cnt : nat -> Z) (X : mat) : Prop :=
  match mn, mx with
  | Some a, Some b => exists u : nat -> Z, forall i, (i < n)%nat ->
        0 <= u i <= b - a /\ u i + row_size cnt X i - b * X i i = 0 /\ u i <= (b - a) * X i i
  | Some a, None => forall i, (i < n)%nat -> row_size cnt X i >= a * X i i
  | None, Some b => forall i, (i < n)%nat -> row_size cnt X i <= b * X i i
  | None, None => True
  end.

(** cp.py:97-120, for non-events (and events) *)
Definition min_max_count (n : nat) (mn mx : option Z) (cnt : nat -> Z) (X : mat) : Prop :=
  forall i, (i < n)%nat ->
    (forall a, mn = Some a -> row_size cnt X i >= a * X i i) /\
    (forall b, mx = Some b -> row_size cnt X i <= b * X i i).

(** [sum([(D[i][j] - D[i][j+1]) * x[i, j] for j in range(i)])] *)
Definition tele (D X : mat) (i : nat) : Z := sum_range 0 i (fun j => (D i j - D i (S j)) * X i j).

(** cp.py:398-403, one constraint of the ascending family *)
Definition asc_constr (D X : mat) (M : Z) (i z : nat) : Prop :=
  tele D X z + D z z * X z z - M - (D i i - M) * X i i - tele D X i <= 0.
(** cp.py:417-422 *)
Definition desc_constr (D X : mat) (M : Z) (i z : nat) : Prop :=
  tele D X i + D i i * X i i - M - (D z z - M) * X z z - tele D X z <= 0.

(** cp.py:405-412 / 424-431, preprocessing for range(lo, hi - 1), inner range(jlo, hi - i - 1);
    [cmp] is the sign test (> 0 or < 0). *)
Definition preproc (lo hi jlo : nat) (cmp : Z -> Prop) (D X : mat) : Prop :=
  forall i, (lo <= i)%nat -> (i < hi - 1)%nat -> cmp (D (S i) i - D (S i) (S i)) ->
    X i i = 0 /\
    forall j, (jlo <= j)%nat -> (j < hi - i - 1)%nat ->
      cmp (D (i + 1 + j)%nat i - D (i + 1 + j)%nat (i + 1 + j)%nat) -> X (i + j)%nat (i + j)%nat = 0.

(** cp.py:395-412; [md0]: min_event_rate_diff == 0 and not scenario binning *)
Definition ascending (n : nat) (D : mat) (M : Z) (md0 : bool) (X : mat) : Prop :=
  (forall i z, (1 <= i < n)%nat -> (z < i)%nat -> asc_constr D X M i z) /\
  (md0 = true -> preproc 0 n 0 (fun v => v > 0) D X).
(** cp.py:414-431 *)
Definition descending (n : nat) (D : mat) (M : Z) (md0 : bool) (X : mat) : Prop :=
  (forall i z, (1 <= i < n)%nat -> (z < i)%nat -> desc_constr D X M i z) /\
  (md0 = true -> preproc 0 n 0 (fun v => v < 0) D X).

(** scaled rate of row i: [tele + D[i][i] * x[i,i]] *)
Definition row_rate (D X : mat) (i : nat) : Z := tele D X i + D i i * X i i.

(** cp.py:433-444 *)
Definition concave (n : nat) (D : mat) (M : Z) (X : mat) : Prop :=
  forall i j k, (2 <= i < n)%nat -> (1 <= j < i)%nat -> (k < j)%nat ->
    - row_rate D X i + 2 * row_rate D X j - row_rate D X k >= M * (X i i + X j j + X k k - 3).
(** cp.py:446-457 *)
Definition convex (n : nat) (D : mat) (M : Z) (X : mat) : Prop :=
  forall i j k, (2 <= i < n)%nat -> (1 <= j < i)%nat -> (k < j)%nat ->
    row_rate D X i - 2 * row_rate D X j + row_rate D X k >= M * (X i i + X j j + X k k - 3).

(** cp.py:136-138 and 295-300: change point [t] in [0,n] and Boolean [y] *)
Definition change_point (n : nat) (y : nat -> Z) (t : Z) : Prop :=
  0 <= t <= Z.of_nat n /\
  (forall i, (i < n)%nat -> y i = 0 \/ y i = 1) /\
  forall i, (i < n)%nat ->
    t >= Z.of_nat i - Z.of_nat n * (1 - y i) /\ t <= Z.of_nat i + Z.of_nat n * y i.

(** cp.py:459-476 *)
Definition peak (n : nat) (D : mat) (M : Z) (y : nat -> Z) (X : mat) : Prop :=
  forall i z, (1 <= i < n)%nat -> (z < i)%nat ->
    M * (y i + y z) + M + (D z z - M) * X z z + tele D X z - tele D X i - D i i * X i i >= 0 /\
    M * (2 - y i - y z) + M + (D i i - M) * X i i + tele D X i - tele D X z - D z z * X z z >= 0.
(** cp.py:478-495 *)
Definition valley (n : nat) (D : mat) (M : Z) (y : nat -> Z) (X : mat) : Prop :=
  forall i z, (1 <= i < n)%nat -> (z < i)%nat ->
    M * (y i + y z) + M + (D i i - M) * X i i + tele D X i - tele D X z - D z z * X z z >= 0 /\
    M * (2 - y i - y z) + M + (D z z - M) * X z z + tele D X z - tele D X i - D i i * X i i >= 0.

(** cp.py:497-532 *)
Definition peak_heuristic (n tc : nat) (D : mat) (M : Z) (md0 : bool) (X : mat) : Prop :=
  (forall i z, (1 <= i < tc)%nat -> (z < i)%nat -> asc_constr D X M i z) /\
  (md0 = true -> preproc 0 tc 0 (fun v => v > 0) D X) /\
  (forall i z, (tc <= i < n)%nat -> (tc <= z < i)%nat -> desc_constr D X M i z) /\
  (md0 = true -> preproc tc n tc (fun v => v < 0) D X).
(** cp.py:534-569 *)
Definition valley_heuristic (n tc : nat) (D : mat) (M : Z) (md0 : bool) (X : mat) : Prop :=
  (forall i z, (1 <= i < tc)%nat -> (z < i)%nat -> desc_constr D X M i z) /\
  (md0 = true -> preproc 0 tc 0 (fun v => v < 0) D X) /\
  (forall i z, (tc <= i < n)%nat -> (tc <= z < i)%nat -> asc_constr D X M i z) /\
  (md0 = true -> preproc tc n tc (fun v => v > 0) D X).

(** cp.py:571-578. A violation index is ((i, j), (z, l)); AddImplication(a, b.Not()).OnlyEnforceIf(ls)
    means: all ls and a true imply b false. *)
Definition viol := ((nat * nat) * (nat * nat))%type.
Definition violation_constr (v : viol) (X : mat) : Prop :=
  let '((i, j), (z, l)) := v in
  match j with
  | S j' => X i j' = 0 -> X z (l - 1)%nat = 0 -> X i j = 1 -> X z l = 0
  | O => X z (l - 1)%nat = 0 -> X i j = 1 -> X z l = 0
  end.
Definition violation_constrs (vs : list viol) (X : mat) : Prop :=
  forall v, In v vs -> violation_constr v X.

(** cp.py:580-584 *)
Definition fixed_splits (n : nat) (fixed : option (list bool)) (X : mat) : Prop :=
  match fixed with
  | None => True
  | Some f => forall i, (i < n - 1)%nat -> nth_error f i = Some true -> X i i = 1
  end.

(** cp.py:153-160: with gamma, pmin / pmax bracket the bin sizes. *)
Definition dominating (n : nat) (cnt : nat -> Z) (pmin pmax : Z) (X : mat) : Prop :=
  let total := sum_range 0 n cnt in
  0 <= pmin <= total /\ 0 <= pmax <= total /\ pmin <= pmax /\
  forall i, (i < n)%nat ->
    pmin <= total * (1 - X i i) + row_size cnt X i /\ pmax >= row_size cnt X i.

Inductive trend := TNone | TAscending | TDescending | TConcave | TConvex | TPeak | TValley
                 | TPeakHeuristic (tc : nat) | TValleyHeuristic (tc : nat).

Record cp_cfg := {
  g_trend : trend; g_min_bins : option Z; g_max_bins : option Z;
  g_min_size : option Z; g_max_size : option Z;
  g_min_ne : option Z; g_max_ne : option Z; g_min_e : option Z; g_max_e : option Z;
  g_md0 : bool; g_fixed : option (list bool);
  g_pviol : list viol; g_dviol : list viol }.

(** cp.py:122-151 *)
Definition trend_constr (n : nat) (D : mat) (M : Z) (g : cp_cfg) (X : mat) : Prop :=
  match g_trend g with
  | TNone => True
  | TAscending => ascending n D M (g_md0 g) X
  | TDescending => descending n D M (g_md0 g) X
  | TConcave => concave n D M X
  | TConvex => convex n D M X
  | TPeak => exists y t, change_point n y t /\ peak n D M y X
  | TValley => exists y t, change_point n y t /\ valley n D M y X
  | TPeakHeuristic tc => peak_heuristic n tc D M (g_md0 g) X
  | TValleyHeuristic tc => valley_heuristic n tc D M (g_md0 g) X
  end.

(** cp.py:51-173: all constraints of [build_model] (gamma = 0). [ne], [ev]: prebin counts. *)
Definition feasible (n : nat) (D : mat) (M : Z) (ne ev : nat -> Z) (g : cp_cfg) (X : mat) : Prop :=
  bool_vars n X /\ unique_assignment n X /\ continuity n X /\
  min_max_bins n (g_min_bins g) (g_max_bins g) X /\
  min_max_bin_size n (g_min_size g) (g_max_size g) (fun j => ne j + ev j) X /\
  min_max_count n (g_min_ne g) (g_max_ne g) ne X /\
  min_max_count n (g_min_e g) (g_max_e g) ev X /\
  trend_constr n D M g X /\
  violation_constrs (g_pviol g) X /\ violation_constrs (g_dviol g) X /\
  fixed_splits n (g_fixed g) X.

(** cp.py:272-277: solution vector (the diagonal), or the single-bin fallback. *)
Inductive solve_outcome := Solved (X : mat) | NoSolution.
Definition solution_vector (n : nat) (o : solve_outcome) : list bool :=
  match o with
  | Solved X => map (fun i => Z.eqb (X i i) 1) (seq 0 n)
  | NoSolution => repeat false (n - 1) ++ [true]
  end.

(** ** Model data: model_data.py:110-174 *)

(** [cumsum] *)
Fixpoint cumsum_from (acc : Z) (l : list Z) : list Z :=
  match l with [] => [] | x :: r => (acc + x) :: cumsum_from (acc + x) r end.
(** [n_event[:i][::-1].cumsum()[::-1]] (line 124-125) *)
Definition suffix_sums (i : nat) (l : list Z) : list Z := rev (cumsum_from 0 (rev (firstn i l))).
(** E[i][j], NE[i][j] (0-based row i is built at loop index i+1, line 123) *)
Definition cum_mat (l : list Z) : mat := fun i j => nth j (suffix_sums (S i) l) 0.
(** D[i][j]: scaled integer event rate, lines 126, 141-144; int64 truncation of a non-negative
    quotient is the floor (exact rational arithmetic; float rounding is not modelled). *)
Definition rate_mat (M : Z) (ne ev : list Z) : mat :=
  fun i j => (M * cum_mat ev i j) / (cum_mat ne i j + cum_mat ev i j).

(** model_data.py:30-57 and 96-107: violation index generation; [bad (i,r) (j,k)] is the test on the
    two candidate bins [r..i] and [k..j]. Policy "all": *)
Definition viol_all (n : nat) (bad : nat -> nat -> nat -> nat -> bool) : list viol :=
  flat_map (fun i => flat_map (fun r => flat_map (fun j => flat_map (fun k =>
    if bad i r j k then [((i, r), (j, k))] else []) (seq (i + 1) (j + 1 - (i + 1))))
    (seq (i + 1) (n - (i + 1)))) (seq 0 (i + 1))) (seq 0 (n - 1)).
(** policy "consecutive" and min_diff (96-107): *)
Definition viol_consecutive (n : nat) (bad : nat -> nat -> nat -> nat -> bool) : list viol :=
  flat_map (fun i => flat_map (fun r => flat_map (fun j =>
    if bad i r j (i + 1)%nat then [((i, r), (j, (i + 1)%nat))] else [])
    (seq (i + 1) (n - (i + 1)))) (seq 0 (i + 1))) (seq 0 (n - 1)).
(** model_data.py:104 on the scaled integer rates *)
Definition min_diff_bad (D : mat) (min_diff : Z) (i r j k : nat) : bool := Z.abs (D i r - D j k) <? min_diff.
(** model_data.py:30-57: the p-value test on the counts of the two candidate bins; [test] stands for
    [test_proportions] (18-27), any Boolean function of (n_nonevent, n_event) of both bins. *)
Definition pvalue_bad (test : Z * Z -> Z * Z -> bool) (ne ev : list Z) (i r j k : nat) : bool :=
  test (cum_mat ne i r, cum_mat ev i r) (cum_mat ne j k, cum_mat ev j k).
(** model_data.py:126-146: V[i][j], the (scaled, truncated) divergence of a candidate bin; [phi] stands
    for the divergence term as a function of the bin's (n_nonevent, n_event). *)
Definition div_mat (phi : Z * Z -> Z) (ne ev : list Z) : mat := fun i j => phi (cum_mat ne i j, cum_mat ev i j).
(** max_pvalue_policy (model_data.py:34,46; no constraint when max_pvalue is None, 154-158) *)
Inductive pvalue_policy := PVNone | PVAll | PVConsecutive.
Definition pviol_of (p : pvalue_policy) (test : Z * Z -> Z * Z -> bool) (ne ev : list Z) : list viol :=
  match p with
  | PVNone => []
  | PVAll => viol_all (length ne) (pvalue_bad test ne ev)
  | PVConsecutive => viol_consecutive (length ne) (pvalue_bad test ne ev)
  end.
(** min_event_rate_diff > 0 (model_data.py:160-169), [k] = int(min_event_rate_diff * scale) *)
Definition dviol_of (md : option Z) (M : Z) (ne ev : list Z) : list viol :=
  match md with None => [] | Some k => viol_consecutive (length ne) (min_diff_bad (rate_mat M ne ev) k) end.

