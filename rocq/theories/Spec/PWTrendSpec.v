(** Shapes the piecewise regression may be asked for, and samples. *)
From Coq Require Import List ZArith QArith Permutation.
From Verif Require Import Spec.CoreSpec Spec.AutoSpec.
Import ListNotations.
Open Scope Q_scope.
(** two sequences are ordered alike *)
Definition same_order (x z : list Q) : Prop := length x = length z /\
  forall i j a b a' b', nth_error x i = Some a -> nth_error x j = Some b -> nth_error z i = Some a' -> nth_error z j = Some b' ->
    (a <= b <-> a' <= b').
(** [s] consists of entries of [l] at different positions: some [rest] completes it to a rearrangement of [l] *)
Definition sample_of {A} (s l : list A) : Prop := exists rest : list A, Permutation (s ++ rest) l.
(** [m] is the mean of the integers [ys] *)
Definition is_mean (m : Q) (ys : list Z) : Prop :=
  m * inject_Z (Z.of_nat (length ys)) == fold_right (fun y s => inject_Z y + s) 0 ys.
(** [m] is the mean target of the records of [l] (value, target) lying in bin i of [splits] (Spec/CoreSpec.v), at least one *)
Definition mean_in_bin (splits : list Z) (l : list (Z * Z)) (i : nat) (m : Q) : Prop :=
  exists inside outside, Permutation (inside ++ outside) l /\ inside <> [] /\
    (forall r, In r inside -> in_bin_i splits i (fst r)) /\ (forall r, In r outside -> ~ in_bin_i splits i (fst r)) /\
    is_mean m (map snd inside).
(** the mean targets of all bins; so no bin is empty *)
Definition are_bin_means (splits : list Z) (l : list (Z * Z)) (ms : list Q) : Prop :=
  length ms = S (length splits) /\ forall i m, nth_error ms i = Some m -> mean_in_bin splits l i m.
Definition strictly_monotone_or_constant (x : list Q) : Prop := strictly_rising x \/ strictly_falling x \/ constant x.
