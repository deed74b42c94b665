(** Vocabulary for strategy "cart" of the 2D binning. *)
From Coq Require Import List ZArith QArith Bool Arith.
From Verif Require Import Model.Arr Model.Core Model.TwoD Model.TwoDCart Spec.TwoDSpec.
Import ListNotations.
Open Scope nat_scope.

Fixpoint n_leaves (t : tree) : nat := match t with Leaf => 1 | Node _ _ l r => n_leaves l + n_leaves r end.
(** the leaf (numbered from the left) a prediction for grid column x and row y ends in *)
Fixpoint leaf_of (t : tree) (x y : nat) : nat :=
  match t with
  | Leaf => 0
  | Node on_x thr l r =>
      if (Z.of_nat (if on_x then x else y) <=? thr)%Z then leaf_of l x y else n_leaves l + leaf_of r x y
  end.
(** r consists of whole leaves: a leaf that meets r lies in r *)
Definition whole_leaves (m n : nat) (t : tree) (r : rect) : Prop :=
  forall y x y' x', y' < m -> x' < n -> in_rect r y x -> leaf_of t x' y' = leaf_of t x y -> in_rect r y' x'.
(** r meets more than one leaf *)
Definition several_leaves (t : tree) (r : rect) : Prop :=
  exists y x y' x', in_rect r y x /\ in_rect r y' x' /\ leaf_of t x y <> leaf_of t x' y'.
(** r' starts in the column where r ends and covers the last grid row of r *)
Definition adj_last_row (r r' : rect) : Prop := r_j r + r_l r = r_j r' /\ r_i r' < r_i r + r_k r <= r_i r' + r_k r'.
(** a rectangle that consists of more than one whole leaf and passes the size checks *)
Definition candidate (m n : nat) (t : tree) (ok : list nat -> bool) (r : rect) : Prop :=
  rect_ok m n r /\ whole_leaves m n t r /\ several_leaves t r /\ ok (cells n r) = true.
(** a tiling that respects the numbers of bins and the trends, along x only next to the last row of each bin *)
Definition valid_cart (m n : nat) (g : cfg2) (q : rect -> Q) (ts : list rect) : Prop :=
  tiling m n ts /\
  match min_bins2 g with Some lo => (lo <= Z.of_nat (length ts))%Z | None => True end /\
  match max_bins2 g with Some hi => (Z.of_nat (length ts) <= hi)%Z | None => True end /\
  (forall r r', In r ts -> In r' ts -> adj_last_row r r' -> follows (trend_x g) (diff_x g) (q r) (q r')) /\
  (forall r r', In r ts -> In r' ts -> adj_y r r' -> follows (trend_y g) (diff_y g) (q r) (q r')).
