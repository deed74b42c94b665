(** Vocabulary for solver="mip": what the solver is trusted for, and exact versions of the requests. *)
From Coq Require Import List ZArith Bool QArith Reals.
From Verif Require Import Model.Arr Model.Core Model.CP Model.MIP Spec.CPSpec Spec.CPFitSpec.
Import ListNotations.

(** the fit had at least two prebins, the solver found the 0/1 assignment X satisfying the constraints posted, and the values it
    reports for the variables x[i, i] are exactly 0 or 1 *)
Definition mip_solved (f : fitted) (solver : list Z -> list Z -> list bool) (g : cp_cfg) (X : mat) : Prop :=
  let nev := pb_nev (f_prebins f) in let ev := pb_ev (f_prebins f) in
  let n := length nev in
  (1 < n)%nat /\ solver nev ev = mip_vector (map (fun i => IZR (X i i)) (seq 0 n)) /\
  feasibleR n (rate_matR nev ev) (at0 nev) (at0 ev) g X.

(** the requested trend holds on exact event rates *)
Definition trend_holds (t : trend) (rows : list (Z * Z)) : Prop :=
  match t with
  | TNone => True
  | TAscending => all_pairs rate_le rows
  | TDescending => all_pairs rate_ge rows
  | TConcave => all_triples (fun r1 r2 r3 => (rate r1 + rate r3 <= 2 * rate r2)%Q) rows
  | TConvex => all_triples (fun r1 r2 r3 => (2 * rate r2 <= rate r1 + rate r3)%Q) rows
  | TPeak | TPeakHeuristic _ => up_down rate_le rows
  | TValley | TValleyHeuristic _ => up_down rate_ge rows
  end.

(** event rate of a row as a real number; rows at least md apart *)
Definition rateR (r : Z * Z) : R := (IZR (snd r) / IZR (fst r + snd r))%R.
Definition apartR (md : R) (r1 r2 : Z * Z) : Prop := (md <= Rabs (rateR r1 - rateR r2))%R.

(** a partition of the prebins that satisfies the whole request exactly *)
Record request_met (ne ev : list Z) (gs : list group) (g : cp_cfg) (pol : pvalue_policy)
    (test : Z * Z -> Z * Z -> bool) (md : R) : Prop := {
  rm_trend : trend_holds (g_trend g) (rows_of ne ev gs);
  rm_bins : within (g_min_bins g) (g_max_bins g) (Z.of_nat (length gs));
  rm_size : Forall (fun r => within (g_min_size g) (g_max_size g) (records r)) (rows_of ne ev gs);
  rm_ne : Forall (fun r => within (g_min_ne g) (g_max_ne g) (fst r)) (rows_of ne ev gs);
  rm_ev : Forall (fun r => within (g_min_e g) (g_max_e g) (snd r)) (rows_of ne ev gs);
  rm_pv : pvalue_ok pol test (rows_of ne ev gs);
  rm_md : neighbours (apartR md) (rows_of ne ev gs);
  rm_fixed : forall f i, g_fixed g = Some f -> (i < length ne - 1)%nat -> nth_error f i = Some true -> exists s, In (s, i) gs }.
