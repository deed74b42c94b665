(** Vocabulary for the piecewise theorems. *)
From Coq Require Import List ZArith Reals Bool.
From Verif Require Import Model.Arr Model.Core Model.Metrics Spec.CoreSpec.
Import ListNotations.
Open Scope R_scope.

(** c_0 + c_1 x + c_2 x^2 + ... *)
Definition poly_at (c : list R) (x : R) : R := rsum (map (fun i => nth i c 0 * x ^ i) (seq 0 (length c))).
(** v lies between the bounds that are given *)
Definition respects (lb ub : option R) (v : R) : Prop :=
  (forall l, lb = Some l -> l <= v) /\ (forall u, ub = Some u -> v <= u).
Definition bounds_ok (lb ub : option R) : Prop := forall l u, lb = Some l -> ub = Some u -> l <= u.
(** v is the admissible value nearest to p *)
Definition nearest (lb ub : option R) (p v : R) : Prop :=
  respects lb ub v /\ forall w, respects lb ub w -> Rabs (v - p) <= Rabs (w - p).
(** number of training samples of a class that carry a special code of row i / that are missing *)
Definition n_code (sp : special) (i : nat) (nonevent : bool) (xs : list xval) (ys : list yval) : Z :=
  Z.of_nat (length (filter (fun xy => Bool.eqb (y_is0 (snd xy)) nonevent &&
    match sp with
    | SpNone => false
    | SpList l => Nat.eqb i 0 && isin l (fst xy)
    | SpDict d => match nth_error d i with Some kv => isin (snd kv) (fst xy) | None => false end
    end) (combine xs ys))).
Definition n_missing (nonevent : bool) (xs : list xval) (ys : list yval) : Z :=
  Z.of_nat (length (filter (fun xy => Bool.eqb (y_is0 (snd xy)) nonevent && x_isnull (fst xy)) (combine xs ys))).
