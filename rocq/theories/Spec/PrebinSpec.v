(** Vocabulary for C72: decision trees, minimum sizes, rounding. *)
From Coq Require Import List ZArith Bool.
From Verif Require Import Model.Arr Model.Core Model.Prebin Spec.CoreSpec.
Import ListNotations.
Open Scope Z_scope.

(** [s] is the threshold of an inner node. *)
Fixpoint inner (t : tree) (s : Z) : Prop := match t with Leaf => False | Node p l r => s = p \/ inner l s \/ inner r s end.
Fixpoint leaves (t : tree) : nat := match t with Leaf => 1 | Node _ l r => leaves l + leaves r end.
(** Every leaf receives at least [m] of the records [xs] (min_samples_leaf). *)
Fixpoint grown (m : nat) (t : tree) (xs : list Z) : Prop :=
  match t with
  | Leaf => (m <= length xs)%nat
  | Node s l r => grown m l (filter (fun x => x <=? s) xs) /\ grown m r (filter (fun x => s <? x) xs)
  end.
(** The clean values of a column. *)
Definition clean_values (sp : special) (xs : list xval) : list Z :=
  map num (filter (fun x => negb (x_isnull x) && negb (isin (flat_codes sp) x)) xs).
(** Every bin holds at least [m] of the values. *)
Definition bins_hold (m : nat) (splits values : list Z) : Prop :=
  forall k p, (k <= length splits)%nat -> (forall z, p z = true <-> in_bin_i splits k z) -> (m <= length (filter p values))%nat.

(** [s] is [t] rounded to a multiple of [U], ties going to the even multiple. *)
Definition rounds_to (U t s : Z) : Prop := (U | s) /\ 2 * Z.abs (s - t) <= U /\ (2 * Z.abs (s - t) = U -> Z.Even (s / U)).
(** The splits are multiples of [U] that come from rounding [from]. *)
Definition rounded_from (U : Z) (from splits : list Z) : Prop := forall s, In s splits -> exists t, In t from /\ rounds_to U t s.
