(** The LocalSolver model built by [BinningLS.build_model] (optbinning/binning/ls.py), solver="ls", as a predicate on an assignment of the
    decision variables. The solver itself is not modelled: an answer OPTIMAL/FEASIBLE is any assignment satisfying the predicate (trusted).
    Model data: the scaled integers of model_data.py, as for solver="cp" (Model/CP.v; ls.py:52-55). gamma, max_pvalue and the minimum
    difference of the trends none, concave, convex, peak and valley do not enter the model (ls.py has no such constraints). *)
From Coq Require Import List ZArith Bool.
From Verif Require Import Model.Arr Model.CP.
Import ListNotations.
Open Scope Z_scope.

(** 77-79: x[i], a[i], z[i] *)
Record ls_vars := mkLS { l_x : nat -> Z; l_a : nat -> Z; l_z : nat -> Z }.
(** index i - 1 of a list of length n: -1 is the last element *)
Definition prev (n i : nat) : nat := match i with O => (n - 1)%nat | S k => k end.
(** 71-74 and model.at: row i of the matrix reversed, at index z. An index outside the row has no value in LocalSolver; here 0. *)
Definition ls_at (A : mat) (i : nat) (z : Z) : Z := nth (Z.to_nat z) (rev (map (A i) (seq 0 (S i)))) 0.
(** x[i] * model.at(A, i, z[i]) *)
Definition ls_val (A : mat) (v : ls_vars) (i : nat) : Z := l_x v i * ls_at A i (l_z v i).

(** 77-79, 97-102 *)
Definition ls_basic (n : nat) (v : ls_vars) : Prop :=
  (forall i, (i < n)%nat -> (l_x v i = 0 \/ l_x v i = 1) /\ 0 <= l_a v i <= Z.of_nat n /\ 0 <= l_z v i <= Z.of_nat n) /\
  l_x v (n - 1)%nat = 1 /\
  forall i, (i < n)%nat ->
    l_a v i = (l_a v (prev n i) + 1) * (1 - l_x v i) /\
    l_z v i = l_a v (prev n i) * l_x v i * (1 - l_x v (prev n i)).

(** one constraint of the ascending family, 241-244, 310-313, 352-355; [k] = int(M * min_event_rate_diff) *)
Definition ls_asc (D : mat) (M k : Z) (v : ls_vars) (i j : nat) : Prop :=
  ls_val D v i + M * (1 - l_x v i) >= ls_val D v j + k * (l_x v i + l_x v j - 1).
(** 255-258, 322-325, 340-343 *)
Definition ls_desc (D : mat) (M k : Z) (v : ls_vars) (i j : nat) : Prop :=
  ls_val D v i + k * (l_x v i + l_x v j - 1) <= ls_val D v j + M * (1 - l_x v j).
(** 246-249, 260-263, 315-318, ...: i in range(lo, hi - 1) *)
Definition ls_cuts (lo hi : nat) (cmp : Z -> Prop) (D : mat) (v : ls_vars) : Prop :=
  forall i, (lo <= i)%nat -> (i < hi - 1)%nat -> cmp (D (S i) i - D (S i) (S i)) -> l_x v i = 0.
(** 237-249 *)
Definition ls_ascending (n : nat) (D : mat) (M k : Z) (md0 : bool) (v : ls_vars) : Prop :=
  (forall i j, (1 <= i < n)%nat -> (j < i)%nat -> ls_asc D M k v i j) /\ (md0 = true -> ls_cuts 0 n (fun d => d > 0) D v).
(** 251-263 *)
Definition ls_descending (n : nat) (D : mat) (M k : Z) (md0 : bool) (v : ls_vars) : Prop :=
  (forall i j, (1 <= i < n)%nat -> (j < i)%nat -> ls_desc D M k v i j) /\ (md0 = true -> ls_cuts 0 n (fun d => d < 0) D v).
(** 265-273 *)
Definition ls_concave (n : nat) (D : mat) (M : Z) (v : ls_vars) : Prop :=
  forall i j k, (2 <= i < n)%nat -> (1 <= j < i)%nat -> (k < j)%nat ->
    - ls_val D v i + 2 * ls_val D v j - ls_val D v k >= M * (l_x v i + l_x v j + l_x v k - 3).
(** 275-283 *)
Definition ls_convex (n : nat) (D : mat) (M : Z) (v : ls_vars) : Prop :=
  forall i j k, (2 <= i < n)%nat -> (1 <= j < i)%nat -> (k < j)%nat ->
    ls_val D v i - 2 * ls_val D v j + ls_val D v k >= M * (l_x v i + l_x v j + l_x v k - 3).
(** 285-296 *)
Definition ls_peak (n : nat) (D : mat) (M : Z) (y : nat -> Z) (v : ls_vars) : Prop :=
  forall i j, (1 <= i < n)%nat -> (j < i)%nat ->
    M * (y i + y j) + M + (ls_at D j (l_z v j) - M) * l_x v j - ls_val D v i >= 0 /\
    M * (2 - y i - y j) + M + (ls_at D i (l_z v i) - M) * l_x v i - ls_val D v j >= 0.
(** 298-309 *)
Definition ls_valley (n : nat) (D : mat) (M : Z) (y : nat -> Z) (v : ls_vars) : Prop :=
  forall i j, (1 <= i < n)%nat -> (j < i)%nat ->
    M * (y i + y j) + M + (ls_at D i (l_z v i) - M) * l_x v i - ls_val D v j >= 0 /\
    M * (2 - y i - y j) + M + (ls_at D j (l_z v j) - M) * l_x v j - ls_val D v i >= 0.
(** 311-333 *)
Definition ls_peak_heuristic (n tc : nat) (D : mat) (M k : Z) (md0 : bool) (v : ls_vars) : Prop :=
  (forall i j, (1 <= i < tc)%nat -> (j < i)%nat -> ls_asc D M k v i j) /\ (md0 = true -> ls_cuts 0 tc (fun d => d > 0) D v) /\
  (forall i j, (tc <= i < n)%nat -> (tc <= j < i)%nat -> ls_desc D M k v i j) /\ (md0 = true -> ls_cuts tc n (fun d => d < 0) D v).
(** 335-358 *)
Definition ls_valley_heuristic (n tc : nat) (D : mat) (M k : Z) (md0 : bool) (v : ls_vars) : Prop :=
  (forall i j, (1 <= i < tc)%nat -> (j < i)%nat -> ls_desc D M k v i j) /\ (md0 = true -> ls_cuts 0 tc (fun d => d < 0) D v) /\
  (forall i j, (tc <= i < n)%nat -> (tc <= j < i)%nat -> ls_asc D M k v i j) /\ (md0 = true -> ls_cuts tc n (fun d => d > 0) D v).
(** 104-143; the change point t and y as in cp.py *)
Definition ls_trend (n : nat) (D : mat) (M k : Z) (g : cp_cfg) (v : ls_vars) : Prop :=
  match g_trend g with
  | TNone => True
  | TAscending => ls_ascending n D M k (g_md0 g) v
  | TDescending => ls_descending n D M k (g_md0 g) v
  | TConcave => ls_concave n D M v
  | TConvex => ls_convex n D M v
  | TPeak => exists y t, change_point n y t /\ ls_peak n D M y v
  | TValley => exists y t, change_point n y t /\ ls_valley n D M y v
  | TPeakHeuristic tc => ls_peak_heuristic n tc D M k (g_md0 g) v
  | TValleyHeuristic tc => ls_valley_heuristic n tc D M k (g_md0 g) v
  end.
(** 85-89, 145-154 *)
Definition ls_bins (n : nat) (mn mx : option Z) (v : ls_vars) : Prop :=
  let total := sum_range 0 n (l_x v) in
  match mn, mx with
  | Some a, Some b => exists d, 0 <= d <= b - a /\ d + total - b = 0
  | Some a, None => total >= a
  | None, Some b => total <= b
  | None, None => True
  end.
(** 91-95, 156-171 *)
Definition ls_size (n : nat) (mn mx : option Z) (NE E : mat) (v : ls_vars) : Prop :=
  let size i := l_x v i * (ls_at NE i (l_z v i) + ls_at E i (l_z v i)) in
  match mn, mx with
  | Some a, Some b => exists u : nat -> Z, forall i, (i < n)%nat ->
      0 <= u i <= b - a /\ u i + size i - b * l_x v i = 0 /\ u i <= (b - a) * l_x v i
  | Some a, None => forall i, (i < n)%nat -> size i >= a * l_x v i
  | None, Some b => forall i, (i < n)%nat -> size i <= b * l_x v i
  | None, None => True
  end.
(** 173-199 *)
Definition ls_count (n : nat) (mn mx : option Z) (A : mat) (v : ls_vars) : Prop :=
  forall i, (i < n)%nat -> (forall a, mn = Some a -> ls_val A v i >= a * l_x v i) /\ (forall b, mx = Some b -> ls_val A v i <= b * l_x v i).
(** 201-205 *)
Definition ls_fixed (n : nat) (fixed : option (list bool)) (v : ls_vars) : Prop :=
  match fixed with None => True | Some f => forall i, (i < n - 1)%nat -> nth_error f i = Some true -> l_x v i = 1 end.

(** 49-213; [ne], [ev]: counts of the prebins; the constraint data of the request [g] that ls.py does not read are ignored *)
Definition ls_feasible (M k : Z) (ne ev : list Z) (g : cp_cfg) (v : ls_vars) : Prop :=
  let n := length ne in let D := rate_mat M ne ev in
  ls_basic n v /\ ls_trend n D M k g v /\ ls_bins n (g_min_bins g) (g_max_bins g) v /\
  ls_size n (g_min_size g) (g_max_size g) (cum_mat ne) (cum_mat ev) v /\
  ls_count n (g_min_ne g) (g_max_ne g) (cum_mat ne) v /\ ls_count n (g_min_e g) (g_max_e g) (cum_mat ev) v /\
  ls_fixed n (g_fixed g) v.
(** 207-209 *)
Definition ls_objective (n : nat) (V : mat) (v : ls_vars) : Z := sum_range 0 n (ls_val V v).
(** 215-235 *)
Inductive ls_outcome := LSSolved (v : ls_vars) | LSNone.
Definition ls_vector (n : nat) (o : ls_outcome) : list bool :=
  match o with LSSolved v => map (fun i => negb (Z.eqb (l_x v i) 0)) (seq 0 n) | LSNone => repeat false (n - 1) ++ [true] end.

(** model_data.py:171-174: the values returned, in order; with return_nonevent_event the pairs violating min_event_rate_diff are left out *)
Definition returned_values {A} (return_nonevent_event : bool) (D V NE E pvalue_pairs min_diff_pairs : A) : list A :=
  if return_nonevent_event then [D; V; NE; E; pvalue_pairs] else [D; V; pvalue_pairs; min_diff_pairs].
(** ls.py:52: [D, V, NE, E, _, _ = ...] *)
Definition ls_unpack {A} (values : list A) : res (A * A * A * A) :=
  match values with [D; V; NE; E; _; _] => Ok (D, V, NE, E) | _ => Err ValueError end.
(** binning.py:1008-1026 and ls.py:49-57: build_model and solve as _fit_optimizer calls them; [answer]: what LocalSolver ends with for the
    data D, V, NE, E *)
Definition ls_fit_optimizer (M : Z) (V : mat) (pvalue_pairs min_diff_pairs : mat) (answer : mat -> mat -> mat -> mat -> ls_outcome) (ne ev : list Z) : res (list bool) :=
  rbind (ls_unpack (returned_values true (rate_mat M ne ev) V (cum_mat ne) (cum_mat ev) pvalue_pairs min_diff_pairs))
    (fun d => match d with (D, V', NE, E) => Ok (ls_vector (length ne) (answer D V' NE E)) end).
