(** Two-dimensional binning: the regularisation gamma (cp_2d.py) and solver="mip" (mip_2d.py). *)
From Coq Require Import List ZArith QArith Bool Arith Reals.
From Verif Require Import Model.Arr Model.Core Model.Metrics Model.MIP Model.Scaled Model.TwoD.
Import ListNotations.

(** cp_2d.py:50-54 and 72-79: the variables pmin and pmax; the constant is the sum over all candidate rectangles *)
Definition size_bounds (nrec : list Z) (sol : list bool) (pmin pmax : Z) : Prop :=
  let total := zsum nrec in
  (0 <= pmin <= total /\ 0 <= pmax <= total /\ pmin <= pmax /\
   forall i, (i < length nrec)%nat -> pmin <= total * (1 - xv sol i) + nth i nrec 0 * xv sol i /\ nth i nrec 0 * xv sol i <= pmax)%Z.
(** cp_2d.py:52: int(np.ceil(scale * gamma / total_records)), scale = 10^6 *)
Definition regularization (M : Z) (gamma : R) (nrec : list Z) : Z := (- Int_part (- (IZR M * gamma / IZR (zsum nrec))))%Z.
(** cp_2d.py:56-57 *)
Definition objective_g (reg : Z) (c : list Z) (sol : list bool) (pmin pmax : Z) : Z := (objective2 c sol - reg * (pmax - pmin))%Z.

Open Scope R_scope.
(** ** mip_2d.py; x[i] is nth i xs 0 *)
Definition xsumR (xs : list R) (l : list nat) : R := rsum (map (fun i => nth i xs 0) l).
(** 132-134 *)
Definition unique_mip2 (n_grid : nat) (rows : list (list nat)) (xs : list R) : Prop := forall c, (c < n_grid)%nat -> xsumR xs (cols rows c) = 1.
(** 122-128 and 136-145 *)
Definition bins_mip2 (g : cfg2) (n_rect : nat) (xs : list R) : Prop :=
  let nb := xsumR xs (seq 0 n_rect) in
  match min_bins2 g, max_bins2 g with
  | Some lo, Some hi => exists d, 0 <= d <= IZR (hi - lo) /\ d + nb - IZR hi = 0
  | Some lo, None => nb >= IZR lo
  | None, Some hi => nb <= IZR hi
  | None, None => True
  end.
(** 147-208 *)
Definition mono_mip2 (tr : option trend2) (md : Q) (er : list Q) (n_rect : nat) (conn : nat -> list nat) (xs : list R) : Prop :=
  match tr with
  | None => True
  | Some tr => forall t, (t < n_rect)%nat ->
      let ind := filter (bad tr md er t) (conn t) in
      ind <> [] -> xsumR xs ind <= INR (length ind) * (1 - nth t xs 0)
  end.
(** 49-50 and 72-79 *)
Definition sizes_mip2 (nrec : list Z) (xs : list R) (pmin pmax : R) : Prop :=
  let total := IZR (zsum nrec) in
  0 <= pmin <= total /\ 0 <= pmax <= total /\ pmin <= pmax /\
  forall i, (i < length nrec)%nat -> pmin <= total * (1 - nth i xs 0) + IZR (nth i nrec 0%Z) * nth i xs 0 /\ IZR (nth i nrec 0%Z) * nth i xs 0 <= pmax.
(** 38-84; pmin and pmax are variables of the model only with gamma (then [sizes_mip2] is added) *)
Definition feasible_mip2 (m n : nat) (g : cfg2) (gamma : R) (rd : rdata) (er : list Q) (nrec : list Z) (xs : list R) (pmin pmax : R) : Prop :=
  length xs = length (rd_rows rd) /\ (forall x, In x xs -> x = 0 \/ x = 1) /\
  unique_mip2 (m * n) (rd_rows rd) xs /\
  bins_mip2 g (length (rd_rows rd)) xs /\
  mono_mip2 (trend_x g) (diff_x g) er (length (rd_rows rd)) (conn_x m n rd) xs /\
  mono_mip2 (trend_y g) (diff_y g) er (length (rd_rows rd)) (conn_y m n rd) xs /\
  (gamma <> 0 -> sizes_mip2 nrec xs pmin pmax).
(** 46-59 *)
Definition objective_mip2 (gamma : R) (c : list R) (nrec : list Z) (xs : list R) (pmin pmax : R) : R :=
  rsum (map2 Rmult c xs) - (if Req_EM_T gamma 0 then 0 else gamma / IZR (zsum nrec) * (pmax - pmin)).
