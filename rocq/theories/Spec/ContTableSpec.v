(** Specification vocabulary for the continuous-target binning table: everything is computed from the training
    records, none of it from the table. *)
From Coq Require Import List ZArith Bool Reals.
From Verif Require Import Model.Arr Model.Core Model.Cont Spec.CoreSpec Spec.ContSpec.
Import ListNotations.
Open Scope R_scope.

(** total weight, total weighted target and weighted mean target of a list of records (0 when there is nothing to
    average) *)
Definition weight (l : list krec) : R := IZR (zsum (map k_w l)).
Definition wtotal (l : list krec) : R := IZR (zsum (map wtarget l)).
Definition wmean (l : list krec) : R := if Req_EM_T (weight l) 0 then 0 else wtotal l / weight l.
(** mean absolute deviation of the target around its mean *)
Definition mean_abs_dev (l : list krec) : R :=
  rtotal (map (fun r => IZR (k_w r) * Rabs (IZR (k_target r) - wmean l)) l) / weight l.
(** [p k] recognises the records of row [k] of the table *)
Definition classifies (p : nat -> krec -> bool) (splits : list Z) (sp : special) : Prop :=
  forall k r, p k r = true <-> row_of splits sp (k_x r) k.
(** number of rows of the table *)
Definition n_rows (splits : list Z) (sp : special) : nat := (S (length splits) + n_special sp + 1)%nat.
(** the documented Information Value and WoE of the rows *)
Definition doc_iv (p : nat -> krec -> bool) (rows : nat) (rs : list krec) : R :=
  rtotal (map (fun k => Rabs (wmean (filter (p k) rs) - wmean rs) * (weight (filter (p k) rs) / weight rs)) (seq 0 rows)).
Definition doc_woe (p : nat -> krec -> bool) (rows : nat) (rs : list krec) : R :=
  rtotal (map (fun k => Rabs (wmean (filter (p k) rs) - wmean rs)) (seq 0 rows)).
(** every record has a target; weights are not negative and not all zero *)
Definition targets_ok (rs : list krec) : Prop :=
  (forall r, In r rs -> (0 <= k_w r)%Z /\ k_y r <> None) /\ 0 < weight rs.
(** [coarse] is [fine] with consecutive rows merged: counts and sums added *)
Definition merged_rows (groups : list (list trow)) (coarse : list trow) : Prop :=
  Forall2 (fun g r => g <> [] /\ r_n r = zsum (map r_n g) /\
                      exists ss, map r_sum g = map Some ss /\ r_sum r = Some (zsum ss)) groups coarse.
(** rows with a count >= 0 and a sum, 0 when the count is 0 *)
Definition rows_ok (rows : list trow) : Prop :=
  forall r, In r rows -> (0 <= r_n r)%Z /\ exists s, r_sum r = Some s /\ (r_n r = 0 -> s = 0)%Z.
(** the same table after adding [c] to every target *)
Definition shifted (c : Z) (a b : list trow) : Prop :=
  Forall2 (fun x y => r_n y = r_n x /\ exists s, r_sum x = Some s /\ r_sum y = Some (s + c * r_n x)%Z) a b.
