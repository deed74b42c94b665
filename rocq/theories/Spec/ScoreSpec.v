(** Vocabulary for scorecards, independent of how the points are computed and looked up. *)
From Coq Require Import List ZArith Bool Reals.
From Verif Require Import Model.Arr Model.Core Model.Cat Model.Scorecard Spec.CoreSpec Spec.CatSpec.
Import ListNotations.
Open Scope R_scope.

(** A scorecard: the points of every row of every variable (the Points column), and [intercept_]. *)
Definition scorecard := (list (list R) * R)%type.
(** A choice of one row per variable. *)
Definition choice (t : list (list R)) (ks : list nat) : Prop := Forall2 (fun l k => (k < length l)%nat) t ks.
(** [Total t ks s]: [s] is the sum of the points of the chosen rows. *)
Inductive Total : list (list R) -> list nat -> R -> Prop :=
| Total_nil : Total [] [] 0
| Total_cons : forall l t k ks p s, nth_error l k = Some p -> Total t ks s -> Total (l :: t) (k :: ks) (p + s).
(** Total score of a choice of rows. *)
Definition Score_of (sc : scorecard) (ks : list nat) (s : R) : Prop :=
  exists p, Total (fst sc) ks p /\ s = snd sc + p.

(** Row of the binning table of a variable a value belongs to: its bin, its special row or the missing row. *)
Definition table_row (v : svar) (x : xval) (k : nat) : Prop :=
  match sv_bins v with
  | Num splits => row_of splits (sv_sp v) x k
  | Catg bins =>
      match x with
      | XNaN => k = (length bins + n_special (sv_sp v))%nat
      | XNum c => (exists i, special_index (sv_sp v) i x /\ k = (length bins + i)%nat) \/
                  (~ In x (flat_codes (sv_sp v)) /\ listed bins k c)
      end
  end.
Definition n_bins_of (v : svar) : nat :=
  match sv_bins v with Num splits => S (length splits) | Catg bins => length bins end.
(** A fitted variable: sorted splits / no category listed twice, no special code under two keys, one metric value per
    row of the table. *)
Definition svar_ok (v : svar) : Prop :=
  sp_disjoint (sv_sp v) /\ length (sv_metric v) = (n_bins_of v + n_special (sv_sp v) + 1)%nat /\
  match sv_bins v with
  | Num splits => nondecreasing splits
  | Catg bins => forall i j c, listed bins i c -> listed bins j c -> i = j
  end.
(** The rows a sample falls in. *)
Inductive sample_rows : list svar -> list xval -> list nat -> Prop :=
| sample_nil : sample_rows [] [] []
| sample_cons : forall v vars x xs k ks, table_row v x k -> sample_rows vars xs ks ->
    sample_rows (v :: vars) (x :: xs) (k :: ks).

(** Binary logarithm, and the probability of the logistic model. *)
Definition log2 (x : R) : R := ln x / ln 2.
Definition logistic (l : R) : R := 1 / (1 + exp (- l)).
