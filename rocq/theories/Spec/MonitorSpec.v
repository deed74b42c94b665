(** Vocabulary for the monitoring theorems. *)
From Coq Require Import List ZArith Reals.
From Verif Require Import Model.Arr Model.Core Model.Monitor Spec.CoreSpec.
Import ListNotations.
Open Scope Z_scope.

(** intervals (-inf, s0], (s0, s1], ..., (s_k, inf) *)
Definition in_right_bin (lo hi : option Z) (x : Z) : Prop :=
  match lo with None => True | Some a => a < x end /\ match hi with None => True | Some b => x <= b end.
Definition in_right_bin_i (splits : list Z) (i : nat) (x : Z) : Prop :=
  match nth_error (edges splits) i, nth_error (edges splits) (S i) with
  | Some lo, Some hi => in_right_bin lo hi x
  | _, _ => False
  end.
(** both columns have the same proportions *)
Definition same_distribution (rows : list (Z * Z)) : Prop :=
  forall r, In r rows -> fst r * zsum (map snd rows) = snd r * zsum (map fst rows).
Definition all_positive (rows : list (Z * Z)) : Prop := forall r, In r rows -> 0 < fst r /\ 0 < snd r.
Definition swap_columns (rows : list (Z * Z)) : list (Z * Z) := map (fun r => (snd r, fst r)) rows.
(** the values of a list of successful results *)
Definition all_ok {A} (l : list (res A)) (vs : list A) : Prop := l = map Ok vs.
