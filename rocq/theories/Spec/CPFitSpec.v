(** Views of a fitted object used to state properties of the optimisation step. *)
From Coq Require Import List ZArith Bool.
From Verif Require Import Model.Arr Model.Core Model.CP Spec.CPSpec.
Import ListNotations.
Open Scope Z_scope.

(** prebin counts as functions of the prebin index *)
Definition at0 (l : list Z) (j : nat) : Z := nth j l 0.

(** the clean rows (non-events, events) of the binning table: one per bin, without special/missing *)
Definition clean_rows (f : fitted) : list (Z * Z) :=
  firstn (S (length (f_splits f))) (combine (f_nev f) (f_ev f)).

(** the fit had at least two prebins and the solver reported the feasible assignment X for the
    constraint model with configuration g *)
Definition solved (f : fitted) (solver : list Z -> list Z -> list bool) (M : Z) (g : cp_cfg) (X : mat) : Prop :=
  let nev := pb_nev (f_prebins f) in let ev := pb_ev (f_prebins f) in
  let n := length nev in
  (1 < n)%nat /\ solver nev ev = solution_vector n (Solved X) /\
  feasible n (rate_mat M nev ev) M (at0 nev) (at0 ev) g X.

(** p-value requirement on the rows of the table *)
Definition pvalue_ok (p : pvalue_policy) (test : Z * Z -> Z * Z -> bool) (rows : list (Z * Z)) : Prop :=
  match p with
  | PVNone => True
  | PVAll => all_pairs (fun r1 r2 => test r1 r2 = false) rows
  | PVConsecutive => neighbours (fun r1 r2 => test r1 r2 = false) rows
  end.

(** the trends for which completeness is stated *)
Definition trend_met (t : trend) (rows : list (Z * Z)) : Prop :=
  match t with
  | TNone => True
  | TAscending => all_pairs rate_le rows
  | TDescending => all_pairs rate_ge rows
  | TPeak => up_down rate_le rows
  | TValley => up_down rate_ge rows
  | _ => False
  end.

(** [spec_ok]: the partition gs of the prebins satisfies everything the user asked for (g, p-value
    policy pol with test, and minimum rate difference md/M). *)
Record spec_ok (ne ev : list Z) (gs : list group) (M : Z) (g : cp_cfg) (pol : pvalue_policy)
    (test : Z * Z -> Z * Z -> bool) (md : option Z) : Prop := {
  so_trend : trend_met (g_trend g) (rows_of ne ev gs);
  so_bins : within (g_min_bins g) (g_max_bins g) (Z.of_nat (length gs));
  so_size : Forall (fun r => within (g_min_size g) (g_max_size g) (records r)) (rows_of ne ev gs);
  so_ne : Forall (fun r => within (g_min_ne g) (g_max_ne g) (fst r)) (rows_of ne ev gs);
  so_ev : Forall (fun r => within (g_min_e g) (g_max_e g) (snd r)) (rows_of ne ev gs);
  so_pv : pvalue_ok pol test (rows_of ne ev gs);
  so_md : forall k, md = Some k -> neighbours (apart M k) (rows_of ne ev gs);
  so_fixed : forall f i, g_fixed g = Some f -> (i < length ne - 1)%nat -> nth_error f i = Some true -> exists s, In (s, i) gs }.
