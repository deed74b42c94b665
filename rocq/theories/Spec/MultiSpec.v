(** Specification vocabulary for a multiclass target. *)
From Coq Require Import List ZArith Bool.
From Verif Require Import Model.Arr Model.Core Model.CP Model.Multi Spec.CoreSpec Spec.CPSpec Spec.CPFitSpec.
Import ListNotations.
Open Scope Z_scope.

(** entry of the binning table: row k (bins, then specials, then missing), class number c *)
Definition cell (f : mfitted) (k c : nat) : Z := nth k (nth c (mf_cols f) []) 0.
(** all records of a row: the Count column of the table *)
Definition row_total (f : mfitted) (k : nat) : Z := zsum (map (fun col => nth k col 0) (mf_cols f)).
(** the bins of the table seen from class number c: (records of other classes, records of the class) *)
Definition class_rows (f : mfitted) (c : nat) : list (Z * Z) :=
  map (fun k => (row_total f k - cell f k c, cell f k c)) (seq 0 (S (length (mf_splits f)))).

(** what the post-processing assumes of the solver's answer *)
Definition m_solver_ok (solver : list (list Z * list Z) -> list bool) : Prop :=
  forall cols n, (2 <= n)%nat -> cols <> [] -> (forall c, In c cols -> length (fst c) = n /\ length (snd c) = n) ->
    length (solver cols) = n /\ last (solver cols) false = true.

(** an optimisation problem was solved: there were splits after refinement, and the solver reported the
    feasible assignment X *)
Definition m_solved (f : mfitted) (solver : list (list Z * list Z) -> list bool) (M : Z) (g : mc_cfg) (X : mat) : Prop :=
  let cols := mp_cols (mf_prebins f) in
  let n := S (length (mp_splits (mf_prebins f))) in
  mp_splits (mf_prebins f) <> [] /\ solver cols = solution_vector n (Solved X) /\ m_feasible n M cols g X.
(** the trend of a class, up to the resolution 1/M of the scaled integers *)
Definition m_trend_holds (M : Z) (t : trend) (rows : list (Z * Z)) : Prop :=
  match t with
  | TAscending => all_pairs (rate_le_res M) rows
  | TDescending => all_pairs (rate_ge_res M) rows
  | TPeak => up_down (rate_le_res M) rows
  | TValley => up_down (rate_ge_res M) rows
  | _ => True
  end.
