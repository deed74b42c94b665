(** Array primitives used by the modelled code (numpy / Python lists). *)
From Coq Require Import List ZArith Bool.
Import ListNotations.
Open Scope Z_scope.

(** Outcome of a Python call: a value or an exception.
    (numpy/Python semantics; exceptions are values in this model.) *)
Inductive exn := ValueError | IndexError | TypeError | NotFitted | OtherError.
Inductive res (A : Type) := Ok (a : A) | Err (e : exn).
Arguments Ok {A} _.
Arguments Err {A} _.

Definition rbind {A B} (r : res A) (f : A -> res B) : res B :=
  match r with Ok a => f a | Err e => Err e end.

(** numpy boolean-mask selection [a[mask]]: elements whose mask entry is True, in order. *)
Fixpoint select {A} (mask : list bool) (l : list A) : list A :=
  match mask, l with
  | b :: m, x :: r => if b then x :: select m r else select m r
  | _, _ => []
  end.

(** [~mask] *)
Definition mnot (m : list bool) : list bool := map negb m.

(** [m1 & m2], [m1 | m2] (elementwise, equal lengths) *)
Fixpoint mand (a b : list bool) : list bool :=
  match a, b with x :: r, y :: s => (x && y) :: mand r s | _, _ => [] end.
Fixpoint mor (a b : list bool) : list bool :=
  match a, b with x :: r, y :: s => (x || y) :: mor r s | _, _ => [] end.

(** [np.sum] on integers *)
Fixpoint zsum (l : list Z) : Z := match l with [] => 0 | x :: r => x + zsum r end.

(** [np.count_nonzero] on a boolean array *)
Fixpoint count_true (l : list bool) : nat :=
  match l with [] => O | b :: r => if b then S (count_true r) else count_true r end.

(** [np.any] *)
Definition any (l : list bool) : bool := existsb (fun b => b) l.

(** Elementwise combination of two arrays of equal length. *)
Fixpoint map2 {A B C} (f : A -> B -> C) (a : list A) (b : list B) : list C :=
  match a, b with x :: r, y :: s => f x y :: map2 f r s | _, _ => [] end.

(** [l[:-1]] and [l[-1]] *)
Definition init {A} (l : list A) : list A := removelast l.

(** Membership test on Z lists (pandas [isin]). *)
Definition zmem (z : Z) (l : list Z) : bool := existsb (Z.eqb z) l.
