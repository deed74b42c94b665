(** Vocabulary for the split points returned by MDLP; u is the unit of the split points (s stands for s/u). *)
From Coq Require Import List ZArith Bool Sorting.
From Verif Require Import Model.Core Model.Mdlp Spec.CoreSpec.
Import ListNotations.
Open Scope Z_scope.

(** data sorted by value *)
Definition sorted_by_x (d : list xy) : Prop := StronglySorted (fun a b => fst a <= fst b) d.
(** x lies in the i-th of the intervals (-inf, s0], (s0, s1], ..., (s_{k-1}, inf) *)
Definition in_leaf (u : Z) (splits : list Z) (i : nat) (x : Z) : bool :=
  (match nth_error splits i with Some s => u * x <=? s | None => true end &&
   match i with O => true | S j => match nth_error splits j with Some s => s <? u * x | None => true end end)%bool.
(** number of samples in the i-th interval *)
Definition leaf_size (u : Z) (splits : list Z) (d : list xy) (i : nat) : nat :=
  length (filter (fun a => in_leaf u splits i (fst a)) d).
(** labels of the samples at or below / above the split *)
Definition labels (d : list xy) : list nat := map snd d.
Definition below (u s : Z) (d : list xy) : list xy := filter (fun a => u * fst a <=? s) d.
Definition above (u s : Z) (d : list xy) : list xy := filter (fun a => s <? u * fst a) d.
(** the split leaves at least [leaf] samples on both sides *)
Definition leaves_enough (u : Z) (leaf : nat) (d : list xy) (s : Z) : Prop :=
  (leaf <= length (below u s d))%nat /\ (leaf <= length (above u s d))%nat.
(** the interval of [bins (-inf,s0), [s0,s1), ..., [s_{k-1}, inf)] used by transform; number of samples in the i-th *)
Definition transform_bin_size (u : Z) (splits : list Z) (d : list xy) (i : nat) : nat :=
  length (filter (fun a => Nat.eqb (Model.Core.digitize splits (u * fst a)) i) d).
