(** Small specification vocabulary for the numerical binning pipeline (independent of the model's
    masks, loops and accumulators). *)
From Coq Require Import List ZArith Bool Sorting.
From Verif Require Import Model.Arr Model.Core.
Import ListNotations.
Open Scope Z_scope.

(** A training sample: value, target, weight. *)
Definition row := (xval * yval * Z)%type.
Definition row_x (r : row) : xval := fst (fst r).
Definition row_y (r : row) : yval := snd (fst r).
Definition row_w (r : row) : Z := snd r.
Definition rows (xs : list xval) (ys : list yval) (sw : list Z) : list row :=
  combine (combine xs ys) sw.

Definition is_missing_row (r : row) : Prop := row_x r = XNaN.
Definition is_special_row (codes : list xval) (r : row) : Prop := In (row_x r) codes.

(** Half-open interval with optional (infinite) ends: the labels "(-inf, a)", "[a, b)", "[a, inf)". *)
Definition in_bin (lo hi : option Z) (x : Z) : Prop :=
  match lo with None => True | Some a => a <= x end /\
  match hi with None => True | Some b => x < b end.

(** Edges -inf, s_0, ..., s_{n-1}, +inf ; bin i lies between edge i and edge i+1. *)
Definition edges (splits : list Z) : list (option Z) := None :: map Some splits ++ [None].
Definition in_bin_i (splits : list Z) (i : nat) (x : Z) : Prop :=
  match nth_error (edges splits) i, nth_error (edges splits) (S i) with
  | Some lo, Some hi => in_bin lo hi x
  | _, _ => False
  end.

(** Strictly / weakly increasing split lists. *)
Definition increasing (l : list Z) : Prop := StronglySorted Z.lt l.
Definition nondecreasing (l : list Z) : Prop := StronglySorted Z.le l.

(** [a] is obtained from [b] by deleting elements. *)
Inductive subseq {A} : list A -> list A -> Prop :=
| subseq_nil : forall l, subseq [] l
| subseq_keep : forall x a b, subseq a b -> subseq (x :: a) (x :: b)
| subseq_drop : forall x a b, subseq a b -> subseq a (x :: b).

(** Total weight of the samples satisfying a predicate. *)
Fixpoint weight_of (p : row -> bool) (l : list row) : Z :=
  match l with [] => 0 | r :: t => (if p r then row_w r else 0) + weight_of p t end.

(** bin i of the splits contains a sample of the given class *)
Definition bin_has (splits : list Z) (data : list csample) (i : nat) (nonevent : bool) : Prop :=
  exists s, In s data /\ c0 s = nonevent /\ in_bin_i splits i (cx s).
(** total weight of a class *)
Definition class_weight_total (data : list csample) (nonevent : bool) : Z :=
  zsum (map cw (filter (fun s => Bool.eqb (c0 s) nonevent) data)).

(** special-code lists of different dict keys do not overlap *)
Definition dict_disjoint (d : list (Z * list xval)) : Prop :=
  forall i j a b x, nth_error d i = Some a -> nth_error d j = Some b ->
    In x (snd a) -> In x (snd b) -> i = j.
Definition sp_disjoint (sp : special) : Prop :=
  match sp with SpDict d => dict_disjoint d | _ => True end.
(** x is special and its table row is the i-th special row *)
Definition special_index (sp : special) (i : nat) (x : xval) : Prop :=
  match sp with
  | SpNone => False
  | SpList l => i = 0%nat /\ In x l
  | SpDict d => exists kv, nth_error d i = Some kv /\ In x (snd kv)
  end.
(** the table row a value belongs to: its bin, its special row, or the missing row (last) *)
Definition row_of (splits : list Z) (sp : special) (x : xval) (k : nat) : Prop :=
  match x with
  | XNaN => k = (S (length splits) + n_special sp)%nat
  | XNum z => (exists i, special_index sp i x /\ k = (S (length splits) + i)%nat) \/
              (~ In x (flat_codes sp) /\ in_bin_i splits k z)
  end.
(** what the post-processing assumes of the solver's answer (established by C07_solution_vector_shape) *)
Definition solver_ok (solver : list Z -> list Z -> list bool) : Prop :=
  forall a b, length a = length b -> (2 <= length a)%nat ->
    length (solver a b) = length a /\ last (solver a b) false = true.
