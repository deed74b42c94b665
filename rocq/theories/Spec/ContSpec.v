(** Specification vocabulary for a continuous target. *)
From Coq Require Import List ZArith Bool QArith Qabs Reals.
From Verif Require Import Model.Arr Model.Core Model.CP Model.Cont Spec.CoreSpec Spec.CPSpec Spec.CPFitSpec.
Import ListNotations.
Open Scope Z_scope.

(** the training records that are neither missing nor special and whose value lies in bin k *)
Definition in_row (sp : special) (splits : list Z) (k : nat) (r : krec) : Prop :=
  exists z y, k_x r = XNum z /\ k_y r = Some y /\ ~ In (XNum z) (flat_codes sp) /\ in_bin_i splits k z.

(** [m] is the smallest / largest element of a list *)
Definition is_min (m : Z) (l : list Z) : Prop := In m l /\ forall a, In a l -> m <= a.
Definition is_max (m : Z) (l : list Z) : Prop := In m l /\ forall a, In a l -> a <= m.

(** population standard deviation (divide by n) of a list of numbers *)
Open Scope R_scope.
Fixpoint rtotal (l : list R) : R := match l with [] => 0 | x :: r => x + rtotal r end.
Definition average (l : list R) : R := rtotal l / INR (length l).
Definition population_std (l : list R) : R :=
  sqrt (average (map (fun v => (v - average l) * (v - average l)) l)).
(** numeric value of an entry of the Std column (None: NaN); np.std computes the population std *)
Definition std_value (c : stdcol) : option R :=
  match c with
  | ByMoments s ss n => Some (sqrt (IZR ss / IZR n - (IZR s / IZR n) ^ 2))
  | NpStd l => Some (population_std (map IZR l))
  | StdZero => Some 0
  | StdNaN => None
  end.
Open Scope Z_scope.

(** clean rows of the table *)
Definition c_clean_rows (f : cfitted) : list trow := firstn (S (length (cf_splits f))) (cf_rows f).
(** mean of a table row, sums in units of 1/yu *)
Definition tmean (yu : Z) (r : trow) : Q :=
  match r_sum r with Some s => inject_Z s / (inject_Z yu * inject_Z (r_n r)) | None => 0 end.
(** mean of a group given (records, sum) *)
Definition gmean (yu : Z) (r : Z * Z) : Q := (inject_Z (snd r) / (inject_Z yu * inject_Z (fst r)))%Q.

(** the fit had at least two prebins and the solver reported the feasible assignment X *)
Definition c_solved (f : cfitted) (solver : list cstat -> list bool) (M yu : Z) (g : cc_cfg) (X : mat) : Prop :=
  let st := cp_stats (cf_prebins f) in let n := length st in
  (1 < n)%nat /\ solver st = solution_vector n (Solved X) /\
  c_feasible n (mean_mat M yu (map c_n st) (map c_sum st)) (at0 (map c_n st)) g X.

(** first mean smaller than the second plus two units 1/M of the scaled integers (truncation towards 0) *)
Definition mean_le_res (M yu : Z) (r1 r2 : trow) : Prop := (tmean yu r1 < tmean yu r2 + 2 / inject_Z M)%Q.
Definition mean_ge_res (M yu : Z) (r1 r2 : trow) : Prop := mean_le_res M yu r2 r1.
(** what post-processing assumes of the solver's answer *)
Definition c_solver_ok (solver : list cstat -> list bool) : Prop :=
  forall st, (2 <= length st)%nat -> length (solver st) = length st /\ last (solver st) false = true.

(** target and weighted target of a record *)
Definition k_target (r : krec) : Z := match k_y r with Some y => y | None => 0 end.
Definition wtarget (r : krec) : Z := k_w r * k_target r.
(** [row] reports exactly the weighted count, sum, number of zeros, minimum, maximum and (unit weights)
    population standard deviation of the records [l] *)
Record row_exact (row : trow) (l : list krec) : Prop := {
  re_n : r_n row = zsum (map k_w l);
  re_sum : r_sum row = Some (zsum (map wtarget l));
  re_zero : r_zero row = Z.of_nat (length (filter (fun r => wtarget r =? 0) l));
  re_min : exists m, r_min row = Fin m /\ is_min m (map wtarget l);
  re_max : exists m, r_max row = Fin m /\ is_max m (map wtarget l);
  re_std : (forall r, In r l -> k_w r = 1) -> std_value (r_std row) = Some (population_std (map IZR (map wtarget l))) }.

(** exact order of means *)
Definition mean_le (yu : Z) (r1 r2 : Z * Z) : Prop := (gmean yu r1 <= gmean yu r2)%Q.
Definition mean_ge (yu : Z) (r1 r2 : Z * Z) : Prop := mean_le yu r2 r1.
Definition nonneg_or_nonpos (l : list Z) : Prop := (forall v, In v l -> 0 <= v) \/ (forall v, In v l -> v <= 0).
(** the trends for which completeness is stated, on the rows (records, sum); peak and valley need target
    sums of one sign *)
Definition c_trend_met (yu : Z) (t : trend) (N S : list Z) (gs : list group) : Prop :=
  match t with
  | TNone => True
  | TAscending => all_pairs (mean_le yu) (rows_of N S gs)
  | TDescending => all_pairs (mean_ge yu) (rows_of N S gs)
  | TPeak => up_down (mean_le yu) (rows_of N S gs) /\ nonneg_or_nonpos S
  | TValley => up_down (mean_ge yu) (rows_of N S gs) /\ nonneg_or_nonpos S
  | _ => False
  end.
(** the partition gs of the prebins satisfies everything the user asked for *)
Record c_request_ok (N S SS : list Z) (gs : list group) (yu : Z) (g : cc_cfg) (pol : pvalue_policy)
    (test : Z * Z * Z -> Z * Z * Z -> bool) (md : option Q) : Prop := {
  cr_trend : c_trend_met yu (cg_trend g) N S gs;
  cr_bins : within (cg_min_bins g) (cg_max_bins g) (Z.of_nat (length gs));
  cr_size : Forall (fun r => within (cg_min_size g) (cg_max_size g) (fst r)) (rows_of N S gs);
  cr_pv : match pol with
          | PVNone => True
          | PVAll => all_pairs (fun r1 r2 => test r1 r2 = false) (map (fun g => (gsum N g, gsum S g, gsum SS g)) gs)
          | PVConsecutive => neighbours (fun r1 r2 => test r1 r2 = false) (map (fun g => (gsum N g, gsum S g, gsum SS g)) gs)
          end;
  cr_md : forall d, md = Some d -> neighbours (fun r1 r2 =>
            (d <= Qabs (inject_Z (snd r1) / inject_Z (fst r1) - inject_Z (snd r2) / inject_Z (fst r2)))%Q) (rows_of N S gs);
  cr_fixed : forall f i, cg_fixed g = Some f -> (i < length N - 1)%nat -> nth_error f i = Some true -> exists s, In (s, i) gs }.

(** records and sum of a table row; with the sum of squares behind its Std entry *)
Definition tab (r : trow) : Z * Z := (r_n r, match r_sum r with Some s => s | None => 0 end).
Definition moments (r : trow) : Z * Z * Z := (tab r, match r_std r with ByMoments _ ss _ => ss | _ => 0 end).
(** scaled |mean - overall mean| of a row (records, sum) *)
Definition norm_phi (M yu : Z) (N S : list Z) (r : Z * Z) : Z :=
  Z.quot (M * Z.abs (snd r * zsum N - zsum S * fst r)) (yu * fst r * zsum N).
