(** Shapes of a sequence of event rates. *)
From Coq Require Import List QArith.
Import ListNotations.
Open Scope Q_scope.
(** neighbouring elements from position i to position j are related *)
Definition steps (R : Q -> Q -> Prop) (x : list Q) (i j : nat) : Prop :=
  forall k a b, (i <= k)%nat -> (k < j)%nat -> nth_error x k = Some a -> nth_error x (S k) = Some b -> R a b.
Definition up (x : list Q) (i j : nat) := steps Qle x i j.
Definition down (x : list Q) (i j : nat) := steps (fun a b => b <= a) x i j.
Definition rising (x : list Q) := steps Qle x 0 (length x).
Definition falling (x : list Q) := steps (fun a b => b <= a) x 0 (length x).
Definition strictly_rising (x : list Q) := steps Qlt x 0 (length x).
Definition strictly_falling (x : list Q) := steps (fun a b => b < a) x 0 (length x).
Definition constant (x : list Q) := steps Qeq x 0 (length x).
(** rising up to some position and falling from there, and the other way round *)
Definition peaked (x : list Q) := exists t, (t < length x)%nat /\ up x 0 t /\ down x t (length x).
Definition valleyed (x : list Q) := exists t, (t < length x)%nat /\ down x 0 t /\ up x t (length x).
(** second differences *)
Definition concave (x : list Q) := forall i a b c, nth_error x i = Some a -> nth_error x (S i) = Some b ->
  nth_error x (S (S i)) = Some c -> c - b <= b - a.
Definition convex (x : list Q) := forall i a b c, nth_error x i = Some a -> nth_error x (S i) = Some b ->
  nth_error x (S (S i)) = Some c -> b - a <= c - b.
