(** Specification vocabulary for the optimisation step: partitions of the prebins 0..n-1 into
    consecutive groups, group totals, and trends of a list of values. Independent of the 0/1 matrix,
    the big-M constraints and the telescoping sums of the model. *)
From Coq Require Import List ZArith Bool Sorting QArith.
From Verif Require Import Model.Arr.
Import ListNotations.
Open Scope nat_scope.
Open Scope Z_scope.

(** A group (s, e) holds the prebins s, s+1, ..., e. *)
Definition group := (nat * nat)%type.

(** [chain a n gs]: gs lists, in order, consecutive groups covering exactly a..n-1. *)
Inductive chain : nat -> nat -> list group -> Prop :=
| chain_nil : forall n, chain n n []
| chain_cons : forall s e n gs, (s <= e)%nat -> chain (S e) n gs -> chain s n ((s, e) :: gs).
Definition partition (n : nat) (gs : list group) : Prop := chain 0 n gs.

(** The prebins of a group and the total of a prebin quantity over a group. *)
Definition slice (l : list Z) (g : group) : list Z :=
  firstn (S (snd g) - fst g) (skipn (fst g) l).
Definition gsum (l : list Z) (g : group) : Z := zsum (slice l g).

(** "every two different groups, in order" and "every two neighbouring groups" *)
Definition all_pairs {A} (P : A -> A -> Prop) (l : list A) : Prop := ForallOrdPairs P l.
Fixpoint neighbours {A} (P : A -> A -> Prop) (l : list A) : Prop :=
  match l with
  | a :: ((b :: _) as r) => P a b /\ neighbours P r
  | _ => True
  end.
(** first non-decreasing then non-increasing, with a single change *)
Definition up_down {A} (le : A -> A -> Prop) (l : list A) : Prop :=
  exists l1 l2, l = l1 ++ l2 /\ all_pairs le l1 /\ all_pairs (fun a b => le b a) l2.

(** [describes n gs X]: the 0/1 matrix X marks x[i, j] = 1 exactly when prebin j belongs to the group
    whose last prebin is i. *)
Definition describes (n : nat) (gs : list group) (X : nat -> nat -> Z) : Prop :=
  forall i j, (i < n)%nat -> (j <= i)%nat ->
    (X i j = 0 \/ X i j = 1) /\ (X i j = 1 <-> exists s, In (s, i) gs /\ (s <= j)%nat).

(** A table row (non-events, events) and its event rate. *)
Definition rate (r : Z * Z) : Q := (inject_Z (snd r) / inject_Z (fst r + snd r))%Q.
(** r1's rate does not exceed r2's by as much as one unit 1/M of the scaled integers *)
Definition rate_le_res (M : Z) (r1 r2 : Z * Z) : Prop := (rate r1 < rate r2 + 1 / inject_Z M)%Q.
Definition rate_ge_res (M : Z) (r1 r2 : Z * Z) : Prop := rate_le_res M r2 r1.
Definition records (r : Z * Z) : Z := fst r + snd r.
(** limits given as optional lower and upper bounds *)
Definition within (lo hi : option Z) (v : Z) : Prop :=
  (forall a, lo = Some a -> a <= v) /\ (forall b, hi = Some b -> v <= b).
(** table rows of a partition *)
Definition rows_of (ne ev : list Z) (gs : list group) : list (Z * Z) :=
  map (fun g => (gsum ne g, gsum ev g)) gs.
(** every three elements, in order *)
Inductive all_triples {A} (P : A -> A -> A -> Prop) : list A -> Prop :=
| at_nil : all_triples P []
| at_cons : forall a l, all_pairs (P a) l -> all_triples P l -> all_triples P (a :: l).
(** at least k/M apart *)
Definition apart (M k : Z) (r1 r2 : Z * Z) : Prop :=
  (inject_Z k / inject_Z M <= rate r2 - rate r1)%Q \/ (inject_Z k / inject_Z M <= rate r1 - rate r2)%Q.
(** more than (k-1)/M apart *)
Definition apart_res (M k : Z) (r1 r2 : Z * Z) : Prop :=
  (inject_Z (k - 1) / inject_Z M < rate r2 - rate r1)%Q \/ (inject_Z (k - 1) / inject_Z M < rate r1 - rate r2)%Q.


(** the requested trend, on exact rates *)
Definition rate_le (r1 r2 : Z * Z) : Prop := (rate r1 <= rate r2)%Q.
Definition rate_ge (r1 r2 : Z * Z) : Prop := (rate r2 <= rate r1)%Q.
