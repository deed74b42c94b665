(** Specification vocabulary for the p-values of a binning table. *)
From Coq Require Import List ZArith Reals.
From Verif Require Import Model.Arr Model.Cont Model.ContTable Spec.ContSpec.
Import ListNotations.
Open Scope R_scope.

(** what is used of the standard normal law: a strictly increasing symmetric distribution function with values strictly
    between 0 and 1, and its quantile function *)
Record normal_law (cdf ppf : R -> R) : Prop := {
  nl_incr : forall x y, x < y -> cdf x < cdf y;
  nl_range : forall x, 0 < cdf x < 1;
  nl_sym : forall x, cdf (- x) = 1 - cdf x;
  nl_ppf : forall p, 0 < p < 1 -> cdf (ppf p) = p }.
(** the two-sided p-value of the statistic z *)
Definition two_sided (cdf : R -> R) (z : R) : R := 2 * (1 - cdf (Rabs z)).
(** the two-by-two table of two rows (n_nonevent, n_event) *)
Definition table2 (r1 r2 : Z * Z) : list (list Z) := [[fst r1; fst r2]; [snd r1; snd r2]].
(** mean, standard deviation and size displayed in a row *)
Definition shown (r : trow) (v : R * R * Z) : Prop :=
  ct_row_mean r = Some (fst (fst v)) /\ std_value (r_std r) = Some (snd (fst v)) /\ r_n r = snd v.
