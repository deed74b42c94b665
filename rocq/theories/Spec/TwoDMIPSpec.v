(** Vocabulary for gamma and solver="mip" in two dimensions. *)
From Coq Require Import List ZArith QArith Bool Reals.
From Verif Require Import Model.Arr Model.Core Model.MIP Model.TwoD Model.TwoDMIP.
Import ListNotations.

(** s is the difference between the largest and the smallest of some numbers *)
Definition is_spread (l : list Z) (s : Z) : Prop :=
  exists a b, In a l /\ In b l /\ (forall v, In v l -> a <= v <= b)%Z /\ s = (b - a)%Z.
(** the mixed-integer solver: what it returns are the values, exactly 0 or 1, of a solution of the constraints *)
Definition sound_mip2 (g : cfg2) (gamma : R) (solver : nat -> nat -> rdata -> list Q -> list Z -> option (list bool)) : Prop :=
  forall m n rd er nrec sol, solver m n rd er nrec = Some sol ->
    exists xs pmin pmax, feasible_mip2 m n g gamma rd er nrec xs pmin pmax /\ sol = mip_vector xs.
(** records of a rectangle *)
Definition rect_records (n : nat) (fe fne : list Z) (r : rect) : Z := (cell_sum fe (cells n r) + cell_sum fne (cells n r))%Z.
