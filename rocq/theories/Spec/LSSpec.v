(** Vocabulary for solver="ls": what the solver is trusted for, the groups of an assignment, and the requests. *)
From Coq Require Import List ZArith Bool QArith.
From Verif Require Import Model.Arr Model.Core Model.CP Model.LS Spec.CPSpec Spec.CPFitSpec.
Import ListNotations.
Open Scope Z_scope.

(** the fit had at least two prebins and the solver reported the assignment v, which satisfies the constraints posted *)
Definition ls_solved (f : fitted) (solver : list Z -> list Z -> list bool) (M k : Z) (g : cp_cfg) (v : ls_vars) : Prop :=
  let ne := pb_nev (f_prebins f) in let ev := pb_ev (f_prebins f) in
  (1 < length ne)%nat /\ solver ne ev = ls_vector (length ne) (LSSolved v) /\ ls_feasible M k ne ev g v.
(** the assignment selects exactly the last prebins of the groups *)
Definition selects (n : nat) (gs : list group) (v : ls_vars) : Prop := forall i, (i < n)%nat -> l_x v i = 1 <-> exists s, In (s, i) gs.

(** r2's rate is above r1's by k/M, exactly; and up to one unit 1/M of the scaled integers *)
Definition above (M k : Z) (r1 r2 : Z * Z) : Prop := (inject_Z k / inject_Z M <= rate r2 - rate r1)%Q.
Definition above_res (M k : Z) (r1 r2 : Z * Z) : Prop := (inject_Z (k - 1) / inject_Z M < rate r2 - rate r1)%Q.
Definition below_res (M k : Z) (r1 r2 : Z * Z) : Prop := above_res M k r2 r1.
Definition below (M k : Z) (r1 r2 : Z * Z) : Prop := above M k r2 r1.
(** what a table fitted with solver="ls" satisfies *)
Definition ls_trend_res (M k : Z) (t : trend) (rows : list (Z * Z)) : Prop :=
  match t with
  | TNone => True
  | TAscending => all_pairs (above_res M k) rows
  | TDescending => all_pairs (below_res M k) rows
  | TConcave => all_triples (fun r1 r2 r3 => (rate r1 + rate r3 < 2 * rate r2 + 2 / inject_Z M)%Q) rows
  | TConvex => all_triples (fun r1 r2 r3 => (2 * rate r2 < rate r1 + rate r3 + 2 / inject_Z M)%Q) rows
  | TPeak => up_down (rate_le_res M) rows
  | TValley => up_down (rate_ge_res M) rows
  | TPeakHeuristic _ => up_down (above_res M k) rows
  | TValleyHeuristic _ => up_down (below_res M k) rows
  end.
(** the trends for which completeness is stated, on exact rates *)
Definition ls_trend_met (M k : Z) (t : trend) (rows : list (Z * Z)) : Prop :=
  match t with
  | TNone => True
  | TAscending => all_pairs (above M k) rows
  | TDescending => all_pairs (below M k) rows
  | TPeak => up_down rate_le rows
  | TValley => up_down rate_ge rows
  | _ => False
  end.
Record ls_request (M k : Z) (ne ev : list Z) (gs : list group) (g : cp_cfg) : Prop := {
  lr_trend : ls_trend_met M k (g_trend g) (rows_of ne ev gs);
  lr_bins : within (g_min_bins g) (g_max_bins g) (Z.of_nat (length gs));
  lr_size : Forall (fun r => within (g_min_size g) (g_max_size g) (records r)) (rows_of ne ev gs);
  lr_ne : Forall (fun r => within (g_min_ne g) (g_max_ne g) (fst r)) (rows_of ne ev gs);
  lr_ev : Forall (fun r => within (g_min_e g) (g_max_e g) (snd r)) (rows_of ne ev gs);
  lr_fixed : forall f i, g_fixed g = Some f -> (i < length ne - 1)%nat -> nth_error f i = Some true -> exists s, In (s, i) gs }.
