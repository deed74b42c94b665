(** Vocabulary for C75: neighbouring bins of a 2D table, read off the table. *)
From Coq Require Import List ZArith Bool Arith Relations Sorting.
From Verif Require Import Model.Arr Model.Core Model.TwoD Spec.CoreSpec Spec.TwoDSpec.
Import ListNotations.
Open Scope nat_scope.

(** Bin b starts where bin a ends along x, and some value of y lies in both; the same with x and y exchanged. *)
Definition right_of (f : fitted2) (a b : nat) : Prop :=
  exists lo s hi, nth_error (t_bx f) a = Some (lo, Some s) /\ nth_error (t_bx f) b = Some (Some s, hi) /\
    exists v, in_interval (t_by f) a v /\ in_interval (t_by f) b v.
Definition above (f : fitted2) (a b : nat) : Prop :=
  exists lo s hi, nth_error (t_by f) a = Some (lo, Some s) /\ nth_error (t_by f) b = Some (Some s, hi) /\
    exists v, in_interval (t_bx f) a v /\ in_interval (t_bx f) b v.
Definition neighbours (f : fitted2) (a b : nat) : Prop := right_of f a b \/ above f a b.
(** lexicographic order of pairs *)
Definition pair_lt (p q : nat * nat) : Prop := fst p < fst q \/ (fst p = fst q /\ snd p < snd q).
(** chain of tests between two bins *)
Definition linked (pairs : list (nat * nat)) : nat -> nat -> Prop := clos_refl_sym_trans nat (fun a b => In (a, b) pairs).
(** The pairs compared by analysis() of the table of [f]: all pairs of neighbours (lower/left bin first), each once and in lexicographic
    order, never a bin with itself, never the same two bins twice, and leading from every bin to every other. *)
Definition tests_neighbours (f : fitted2) (pairs : list (nat * nat)) : Prop :=
  (forall a b, In (a, b) pairs <-> neighbours f a b) /\
  Sorted.StronglySorted pair_lt pairs /\
  (forall a b, In (a, b) pairs -> a < length (t_bx f) /\ b < length (t_bx f) /\ a <> b /\ ~ In (b, a) pairs) /\
  (forall a b, a < length (t_bx f) -> b < length (t_bx f) -> linked pairs a b).
