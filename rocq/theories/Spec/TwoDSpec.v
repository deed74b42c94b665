(** Vocabulary for the 2D theorems. *)
From Coq Require Import List ZArith QArith Bool Arith.
From Verif Require Import Model.Arr Model.Core Model.TwoD Spec.CoreSpec.
Import ListNotations.
Open Scope Z_scope.

(** cell (row y, column x) of the grid lies in the rectangle *)
Definition in_rect (r : rect) (y x : nat) : Prop := (r_i r <= y < r_i r + r_k r)%nat /\ (r_j r <= x < r_j r + r_l r)%nat.
(** a nonempty rectangle inside the m x n grid *)
Definition rect_ok (m n : nat) (r : rect) : Prop :=
  (1 <= r_k r)%nat /\ (1 <= r_l r)%nat /\ (r_i r + r_k r <= m)%nat /\ (r_j r + r_l r <= n)%nat.
(** rectangles (by position) covering every cell exactly once *)
Definition tiling (m n : nat) (rs : list rect) : Prop :=
  (forall r, In r rs -> rect_ok m n r) /\
  forall y x, (y < m)%nat -> (x < n)%nat ->
    exists b r, nth_error rs b = Some r /\ in_rect r y x /\
    forall b' r', nth_error rs b' = Some r' -> in_rect r' y x -> b' = b.
(** bin b, as displayed in the table, contains the value of one axis: [lo, hi) *)
Definition in_interval (bins : list (option Z * option Z)) (b : nat) (x : Z) : Prop :=
  match nth_error bins b with Some (lo, hi) => in_bin lo hi x | None => False end.
(** a value the axis knows: a number, or one of the categories *)
Definition known (a : axis) (x : xval) : Prop :=
  match a with ANum => exists z, x = XNum z | ACat cats => NoDup cats /\ exists z, x = XNum z /\ In z cats end.
Definition no_code (o : option (list xval)) (x : xval) : Prop := match o with Some l => ~ In x l | None => True end.
(** number of samples with a property *)
Definition n_of (p : sample2 -> bool) (l : list sample2) : Z := Z.of_nat (length (filter p l)).
(** the table's bin b shows the value x of one axis: its interval [lo, hi) contains x, or its list of categories does *)
Definition shows (a : axis) (bins : list (option Z * option Z)) (b : nat) (x : xval) : Prop :=
  match x with
  | XNum z => match a with
              | ANum => in_interval bins b z
              | ACat cats => exists iv, nth_error bins b = Some iv /\ In z (bin_cats iv cats)
              end
  | XNaN => False
  end.
(** the optimisation oracle: what it returns satisfies the constraints *)
Definition sound_solver2 (g : cfg2) (solver : nat -> nat -> rdata -> list Q -> list Z -> option (list bool)) : Prop :=
  forall m n rd er nrec sol, solver m n rd er nrec = Some sol -> feasible2 m n g rd er nrec sol.
(** categories of an axis: those of the clean training samples *)
Definition axis_ok (a : axis) (xs : list xval) : Prop :=
  match a with ANum => True | ACat cats => NoDup cats /\ forall z, In z cats <-> In (XNum z) xs end.
(** the index a training sample is transformed to *)
Definition lands (ax ay : axis) (cx cy : option (list xval)) (f : fitted2) (b : nat) (s : sample2) : bool :=
  match transform2_indices ax ay cx cy f Empirical Empirical (s_x s) (s_y s) with Ok i => Z.eqb i (Z.of_nat b) | Err _ => false end.
(** r' starts in the column where r ends, and some grid row meets both; the same for the other axis *)
Local Open Scope nat_scope.
Definition adj_x (r r' : rect) : Prop := r_j r + r_l r = r_j r' /\ exists y, r_i r <= y < r_i r + r_k r /\ r_i r' <= y < r_i r' + r_k r'.
Definition adj_y (r r' : rect) : Prop := r_i r + r_k r = r_i r' /\ exists x, r_j r <= x < r_j r + r_l r /\ r_j r' <= x < r_j r' + r_l r'.
(** rate b comes after rate a in the trend, by more than md *)
Definition follows (tr : option trend2) (md a b : Q) : Prop :=
  match tr with Some Asc2 => (a + md < b)%Q | Some Desc2 => (b + md < a)%Q | None => True end.
(** a tiling by admissible rectangles that respects the numbers of bins and the trends *)
Definition valid_tiling (m n : nat) (g : cfg2) (ok : rect -> Prop) (q : rect -> Q) (ts : list rect) : Prop :=
  tiling m n ts /\ (forall r, In r ts -> ok r) /\
  match min_bins2 g with Some lo => (lo <= Z.of_nat (length ts))%Z | None => True end /\
  match max_bins2 g with Some hi => (Z.of_nat (length ts) <= hi)%Z | None => True end /\
  (forall r r', In r ts -> In r' ts -> adj_x r r' -> follows (trend_x g) (diff_x g) (q r) (q r')) /\
  (forall r r', In r ts -> In r' ts -> adj_y r r' -> follows (trend_y g) (diff_y g) (q r) (q r')).
(** event rate of a row of the table; bounds that may be unset *)
Definition row_rate (f : fitted2) (b : nat) : Q := rate (nth b (t_ev f) 0%Z) (nth b (t_nev f) 0%Z).
Definition at_least (o : option Z) (v : Z) : Prop := match o with Some b => (b <= v)%Z | None => True end.
Definition at_most (o : option Z) (v : Z) : Prop := match o with Some b => (v <= b)%Z | None => True end.
