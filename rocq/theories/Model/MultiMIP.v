(** The mixed-integer model of a multiclass target, solver="mip": optbinning/binning/multiclass_mip.py. Real arithmetic, as in Model/MIP.v.
    min_bin_size and max_bin_size are not modelled (the code hands over a matrix of records, see C29). *)
From Coq Require Import List ZArith Bool Reals.
From Verif Require Import Model.Arr Model.Core Model.Metrics Model.CP Model.MIP Model.Multi.
Import ListNotations.
Open Scope R_scope.

(** 167-184: as in mip.py, with n instead of 1 as the constant that switches a constraint off *)
Definition peakN (n : nat) (D : rmat) (y : nat -> Z) (X : mat) : Prop :=
  forall i z, (1 <= i < n)%nat -> (z < i)%nat ->
    INR n * (IZR (y i) + IZR (y z)) + 1 + (D z z - 1) * IZR (X z z) + teleR D X z - teleR D X i - D i i * IZR (X i i) >= 0 /\
    INR n * (2 - IZR (y i) - IZR (y z)) + 1 + (D i i - 1) * IZR (X i i) + teleR D X i - teleR D X z - D z z * IZR (X z z) >= 0.
(** 186-203 *)
Definition valleyN (n : nat) (D : rmat) (y : nat -> Z) (X : mat) : Prop :=
  forall i z, (1 <= i < n)%nat -> (z < i)%nat ->
    INR n * (IZR (y i) + IZR (y z)) + 1 + (D i i - 1) * IZR (X i i) + teleR D X i - teleR D X z - D z z * IZR (X z z) >= 0 /\
    INR n * (2 - IZR (y i) - IZR (y z)) + 1 + (D z z - 1) * IZR (X z z) + teleR D X z - teleR D X i - D i i * IZR (X i i) >= 0.
(** 83-108. The tests for the heuristics (102, 106) compare the whole list of trends with a string: never taken; "concave" and
    "convex" have no branch. *)
Definition mm_trend (n : nat) (D : rmat) (md0 : bool) (t : trend) (X : mat) : Prop :=
  match t with
  | TAscending => ascendingR n D md0 X
  | TDescending => descendingR n D md0 X
  | TPeak => exists y t, change_point n y t /\ peakN n D y X
  | TValley => exists y t, change_point n y t /\ valleyN n D y X
  | _ => True
  end.
Record mmip_cfg := { mm_trends : list trend; mm_min_bins : option Z; mm_max_bins : option Z; mm_fixed : option (list bool);
  mm_pol : pvalue_policy; mm_test : Z * Z -> Z * Z -> bool; mm_md : R }.
(** self.min_event_rate_diff == 0 (mip.py:292, 311) *)
Definition is0R (md : R) : bool := if Req_EM_T md 0 then true else false.
(** 83-118 for one class; D and the violations from model_data.py:177-242 without scale *)
Definition class_constrR (n : nat) (g : mmip_cfg) (X : mat) (t : trend) (c : list Z * list Z) : Prop :=
  mm_trend n (rate_matR (fst c) (snd c)) (is0R (mm_md g)) t X /\
  violation_ineqs (pviol_of (mm_pol g) (mm_test g) (fst c) (snd c)) X /\
  violation_ineqs (dviol_ofR (mm_md g) (fst c) (snd c)) X.
(** 69-121 *)
Definition mm_feasible (n : nat) (cols : list (list Z * list Z)) (g : mmip_cfg) (X : mat) : Prop :=
  bool_vars n X /\ unique_assignment n X /\ continuity n X /\
  min_max_bins n (mm_min_bins g) (mm_max_bins g) X /\
  Forall2 (class_constrR n g X) (mm_trends g) cols /\
  fixed_splits n (mm_fixed g) X.
(** 64-67; the divergence is Jeffrey's (model_data.py:204) *)
Definition mm_objective (n : nat) (cols : list (list Z * list Z)) (X : mat) : R :=
  rsum (map (fun c => objectiveR n (div_matR (div_term IV (fst c) (snd c)) (fst c) (snd c)) X) cols).
