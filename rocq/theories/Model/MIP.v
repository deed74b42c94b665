(** The mixed-integer model built by [BinningMIP.build_model] (optbinning/binning/mip.py), solver="mip", as a predicate on an assignment
    of the decision variables. Event rates and divergences are real numbers (model_data.py:110-174 without scale); no float rounding.
    Constraints on integers only (assignment, continuity, bins, sizes, counts, change point, fixed splits) are posted exactly as in
    cp.py and taken from Model/CP.v. *)
From Coq Require Import List ZArith Bool Reals.
From Verif Require Import Model.Arr Model.Core Model.Metrics Model.CP.
Import ListNotations.
Open Scope R_scope.

Definition rmat := nat -> nat -> R.
Definition sumr (lo hi : nat) (f : nat -> R) : R := rsum (map f (seq lo (hi - lo))).

(** model_data.py:126: event rates of the candidate bins *)
Definition rate_matR (ne ev : list Z) : rmat := fun i j => IZR (cum_mat ev i j) / IZR (cum_mat ne i j + cum_mat ev i j).
(** model_data.py:126-139: divergence of the candidate bins; [phi] as in Model/CP.v, real valued *)
Definition div_matR (phi : Z * Z -> R) (ne ev : list Z) : rmat := fun i j => phi (cum_mat ne i j, cum_mat ev i j).

(** mip.py:78-87 (75-82 with the gamma term) *)
Definition objectiveR (n : nat) (V : rmat) (X : mat) : R :=
  sumr 0 n (fun i => V i i * IZR (X i i) + sumr 0 i (fun j => (V i j - V i (S j)) * IZR (X i j))).

Definition teleR (D : rmat) (X : mat) (i : nat) : R := sumr 0 i (fun j => (D i j - D i (S j)) * IZR (X i j)).
(** mip.py:274-283 *)
Definition asc_constrR (D : rmat) (X : mat) (i z : nat) : Prop :=
  teleR D X z + D z z * IZR (X z z) - 1 - (D i i - 1) * IZR (X i i) - teleR D X i <= 0.
(** mip.py:294-303 *)
Definition desc_constrR (D : rmat) (X : mat) (i z : nat) : Prop :=
  teleR D X i + D i i * IZR (X i i) - 1 - (D z z - 1) * IZR (X z z) - teleR D X z <= 0.
(** mip.py:285-292, 305-312, 397-404, ... *)
Definition preprocR (lo hi jlo : nat) (cmp : R -> Prop) (D : rmat) (X : mat) : Prop :=
  forall i, (lo <= i)%nat -> (i < hi - 1)%nat -> cmp (D (S i) i - D (S i) (S i)) ->
    X i i = 0%Z /\
    forall j, (jlo <= j)%nat -> (j < hi - i - 1)%nat ->
      cmp (D (i + 1 + j)%nat i - D (i + 1 + j)%nat (i + 1 + j)%nat) -> X (i + j)%nat (i + j)%nat = 0%Z.
(** mip.py:273-292 *)
Definition ascendingR (n : nat) (D : rmat) (md0 : bool) (X : mat) : Prop :=
  (forall i z, (1 <= i < n)%nat -> (z < i)%nat -> asc_constrR D X i z) /\ (md0 = true -> preprocR 0 n 0 (fun v => v > 0) D X).
(** mip.py:293-312 *)
Definition descendingR (n : nat) (D : rmat) (md0 : bool) (X : mat) : Prop :=
  (forall i z, (1 <= i < n)%nat -> (z < i)%nat -> desc_constrR D X i z) /\ (md0 = true -> preprocR 0 n 0 (fun v => v < 0) D X).
Definition row_rateR (D : rmat) (X : mat) (i : nat) : R := teleR D X i + D i i * IZR (X i i).
(** mip.py:314-328 *)
Definition concaveR (n : nat) (D : rmat) (X : mat) : Prop :=
  forall i j k, (2 <= i < n)%nat -> (1 <= j < i)%nat -> (k < j)%nat ->
    - row_rateR D X i + 2 * row_rateR D X j - row_rateR D X k >= IZR (X i i + X j j + X k k - 3).
(** mip.py:330-344 *)
Definition convexR (n : nat) (D : rmat) (X : mat) : Prop :=
  forall i j k, (2 <= i < n)%nat -> (1 <= j < i)%nat -> (k < j)%nat ->
    row_rateR D X i - 2 * row_rateR D X j + row_rateR D X k >= IZR (X i i + X j j + X k k - 3).
(** mip.py:346-366 *)
Definition peakR (n : nat) (D : rmat) (y : nat -> Z) (X : mat) : Prop :=
  forall i z, (1 <= i < n)%nat -> (z < i)%nat ->
    IZR (y i) + IZR (y z) + 1 + (D z z - 1) * IZR (X z z) + teleR D X z - teleR D X i - D i i * IZR (X i i) >= 0 /\
    2 - IZR (y i) - IZR (y z) + 1 + (D i i - 1) * IZR (X i i) + teleR D X i - teleR D X z - D z z * IZR (X z z) >= 0.
(** mip.py:368-388 *)
Definition valleyR (n : nat) (D : rmat) (y : nat -> Z) (X : mat) : Prop :=
  forall i z, (1 <= i < n)%nat -> (z < i)%nat ->
    IZR (y i) + IZR (y z) + 1 + (D i i - 1) * IZR (X i i) + teleR D X i - teleR D X z - D z z * IZR (X z z) >= 0 /\
    2 - IZR (y i) - IZR (y z) + 1 + (D z z - 1) * IZR (X z z) + teleR D X z - teleR D X i - D i i * IZR (X i i) >= 0.
(** mip.py:390-425 *)
Definition peak_heuristicR (n tc : nat) (D : rmat) (md0 : bool) (X : mat) : Prop :=
  (forall i z, (1 <= i < tc)%nat -> (z < i)%nat -> asc_constrR D X i z) /\
  (md0 = true -> preprocR 0 tc 0 (fun v => v > 0) D X) /\
  (forall i z, (tc <= i < n)%nat -> (tc <= z < i)%nat -> desc_constrR D X i z) /\
  (md0 = true -> preprocR tc n tc (fun v => v < 0) D X).
(** mip.py:427-458 *)
Definition valley_heuristicR (n tc : nat) (D : rmat) (md0 : bool) (X : mat) : Prop :=
  (forall i z, (1 <= i < tc)%nat -> (z < i)%nat -> desc_constrR D X i z) /\
  (md0 = true -> preprocR 0 tc 0 (fun v => v < 0) D X) /\
  (forall i z, (tc <= i < n)%nat -> (tc <= z < i)%nat -> asc_constrR D X i z) /\
  (md0 = true -> preprocR tc n tc (fun v => v > 0) D X).
(** mip.py:124-151 *)
Definition trend_constrR (n : nat) (D : rmat) (g : cp_cfg) (X : mat) : Prop :=
  match g_trend g with
  | TNone => True
  | TAscending => ascendingR n D (g_md0 g) X
  | TDescending => descendingR n D (g_md0 g) X
  | TConcave => concaveR n D X
  | TConvex => convexR n D X
  | TPeak => exists y t, change_point n y t /\ peakR n D y X
  | TValley => exists y t, change_point n y t /\ valleyR n D y X
  | TPeakHeuristic tc => peak_heuristicR n tc D (g_md0 g) X
  | TValleyHeuristic tc => valley_heuristicR n tc D (g_md0 g) X
  end.
(** mip.py:460-466: one inequality per violation *)
Definition violation_ineq (v : viol) (X : mat) : Prop :=
  let '((i, j), (z, l)) := v in
  match j with
  | S j' => (X i j + X z l <= 1 + X i j' + X z (l - 1)%nat)%Z
  | O => (X i j + X z l <= 1 + X z (l - 1)%nat)%Z
  end.
Definition violation_ineqs (vs : list viol) (X : mat) : Prop := forall v, In v vs -> violation_ineq v X.

(** mip.py:47-175 *)
Definition feasibleR (n : nat) (D : rmat) (ne ev : nat -> Z) (g : cp_cfg) (X : mat) : Prop :=
  bool_vars n X /\ unique_assignment n X /\ continuity n X /\
  min_max_bins n (g_min_bins g) (g_max_bins g) X /\
  min_max_bin_size n (g_min_size g) (g_max_size g) (fun j => ne j + ev j)%Z X /\
  min_max_count n (g_min_ne g) (g_max_ne g) ne X /\
  min_max_count n (g_min_e g) (g_max_e g) ev X /\
  trend_constrR n D g X /\
  violation_ineqs (g_pviol g) X /\ violation_ineqs (g_dviol g) X /\
  fixed_splits n (g_fixed g) X.

(** model_data.py:96-107: minimum event rate difference, real valued *)
Definition min_diff_test (md : R) (r1 r2 : Z * Z) : bool :=
  if Rlt_dec (Rabs (IZR (snd r1) / IZR (fst r1 + snd r1) - IZR (snd r2) / IZR (fst r2 + snd r2))) md then true else false.
Definition dviol_ofR (md : R) (ne ev : list Z) : list viol :=
  if Rlt_dec 0 md then viol_consecutive (length ne) (pvalue_bad (min_diff_test md) ne ev) else [].

(** mip.py:183-206: the solution vector from the values of the solver's variables x[i, i], which are floats: [astype(bool)] is True
    for every value other than 0. *)
Definition mip_vector (values : list R) : list bool := map (fun v => if Req_EM_T v 0 then false else true) values.
(** model_data.py:118-119, 128-139: divergence of a candidate bin (non-events, events) of prebins with these totals *)
Definition div_term (d : divergence) (ne ev : list Z) (r : Z * Z) : R :=
  let p := IZR (snd r) / IZR (zsum ev) in let q := IZR (fst r) / IZR (zsum ne) in
  match d with IV => jeffrey1 p q | JS => js1 p q | HELLINGER => hellinger1 p q | TRIANGULAR => triangular1 p q end.
