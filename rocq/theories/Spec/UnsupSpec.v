(** Vocabulary for the unsupervised prebinning methods. *)
From Coq Require Import List ZArith QArith Bool Arith.
From Verif Require Import Model.Arr Model.Core Model.Outlier Model.Unsup Spec.OutlierSpec.
Import ListNotations.
Open Scope Q_scope.

Definition least (lo : Z) (xs : list Z) : Prop := In lo xs /\ forall x, In x xs -> (lo <= x)%Z.
Definition greatest (hi : Z) (xs : list Z) : Prop := In hi xs /\ forall x, In x xs -> (x <= hi)%Z.
Definition count (p : Z -> bool) (xs : list Z) : nat := length (filter p xs).
(** number of records strictly below the split point [v] *)
Definition records_below (v : Q) (xs : list Z) : nat := count (fun x => negb (Qle_bool v (inject_Z x))) xs.
(** number of records in the j-th pre-bin: a record goes to the bin numbered by how many split points are at or below it *)
Definition bin_of (splits : list Q) (x : Z) : nat := length (filter (fun s => Qle_bool s (inject_Z x)) splits).
Definition bin_count (splits : list Q) (j : nat) (xs : list Z) : nat := count (fun x => Nat.eqb (bin_of splits x) j) xs.
