(** Vocabulary for the metric theorems: real sums indexed by positions, coarsening of a table. *)
From Coq Require Import List ZArith Reals Permutation Sorting.
From Verif Require Import Model.Arr Model.Metrics.
Import ListNotations.
Open Scope R_scope.

(** valid counts *)
Definition counts_ok (l : list Z) : Prop := forall c, In c l -> (0 <= c)%Z.
(** rows as (event, nonevent) pairs *)
Definition evs (rows : list grow) : list Z := map fst rows.
Definition nevs (rows : list grow) : list Z := map snd rows.
(** merging each group of consecutive rows into one row *)
Definition merge_rows (groups : list (list grow)) : list grow :=
  map (fun g => (zsum (evs g), zsum (nevs g))) groups.
Definition both_classes (r : grow) : Prop := (0 < fst r)%Z /\ (0 < snd r)%Z.

(** numpy argsort by non-event rate, ties in any order *)
Definition argsort_ok (argsort : list grow -> list grow) : Prop :=
  forall l, Permutation (argsort l) l /\ StronglySorted (fun a b => ner a <= ner b) (argsort l).

(** sum over all ordered pairs of rows *)
Definition pair_sum (f : grow -> grow -> R) (l : list grow) : R :=
  rsum (map (fun a => rsum (map (f a) l)) l).
