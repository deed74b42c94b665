(** Specification vocabulary for scenario-based binning. *)
From Coq Require Import List ZArith Bool QArith.
From Verif Require Import Model.Arr Model.Core Model.CP Model.Multi Model.Scenario Spec.CoreSpec Spec.CPSpec Spec.CPFitSpec.
Import ListNotations.
Open Scope Z_scope.

(** a usable scenario: as many targets as values, no missing target *)
Definition scen_valid (s : scen) : Prop := length (fst s) = length (snd s) /\ ~ In YNaN (snd s).
(** pre-binning returns sorted splits, rounding is monotone, special codes are a list of numbers, and the solver returns
    one Boolean per prebin, the last one True *)
Record sb_env_ok (e : sb_env) : Prop := {
  ek_prebin : forall d, nondecreasing (se_prebin e d);
  ek_rnd : forall a b, a <= b -> se_rnd e a <= se_rnd e b;
  ek_sp : match se_sp e with SpDict _ => False | _ => True end;
  ek_nan : ~ In XNaN (flat_codes (se_sp e));
  ek_solver : forall pr n, (2 <= n)%nat -> pr_cols pr <> [] ->
     (forall c, In c (pr_cols pr) -> length (fst c) = n /\ length (snd c) = n) ->
     length (se_solver e pr) = n /\ last (se_solver e pr) false = true }.

(** the number of records of a scenario in a table row, by class *)
Definition scen_count (splits : list Z) (sp : special) (s : scen) (nonevent : bool) (k : nat) (c : Z) : Prop :=
  forall p, (forall x y, p (x, y) = true <-> y_is0 y = nonevent /\ row_of splits sp x k) ->
    c = Z.of_nat (length (filter p (combine (fst s) (snd s)))).
(** the bins (not special, not missing) of a table, as (non-events, events) *)
Definition bins_of (f : sfitted) (t : list Z * list Z) : list (Z * Z) :=
  firstn (S (length (sf_splits f))) (combine (fst t) (snd t)).

(** an optimisation problem was solved: the solver reported the feasible assignment X *)
Definition s_solved (e : sb_env) (f : sfitted) (M : Z) (g : sc_cfg) (X : mat) : Prop :=
  let n := S (length (mp_splits (sf_prebins f))) in
  se_solver e (sf_problem f) = solution_vector n (Solved X) /\ sc_feasible n M (sf_problem f) g X.

(** up to position k in one direction, from there on in the other *)
Definition bends_at {A} (k : nat) (le : A -> A -> Prop) (l : list A) : Prop :=
  all_pairs le (firstn k l) /\ all_pairs (fun a b => le b a) (skipn k l).
(** the requested trend in every scenario (a peak / valley bends at the same bin in all of them), up to 1/M *)
Definition s_trend_holds (M : Z) (t : trend) (tabs : list (list (Z * Z))) : Prop :=
  match t with
  | TAscending => Forall (all_pairs (rate_le_res M)) tabs
  | TDescending => Forall (all_pairs (rate_ge_res M)) tabs
  | TConcave => Forall (all_triples (fun r1 r2 r3 => (rate r1 + rate r3 < 2 * rate r2 + 2 / inject_Z M)%Q)) tabs
  | TConvex => Forall (all_triples (fun r1 r2 r3 => (2 * rate r2 < rate r1 + rate r3 + 2 / inject_Z M)%Q)) tabs
  | TPeak => exists k, Forall (bends_at k (rate_le_res M)) tabs
  | TValley => exists k, Forall (bends_at k (rate_ge_res M)) tabs
  | _ => True
  end.
(** the trends for which completeness is stated, on exact rates *)
Definition s_trend_met (t : trend) (tabs : list (list (Z * Z))) : Prop :=
  match t with
  | TNone => True
  | TAscending => Forall (all_pairs rate_le) tabs
  | TDescending => Forall (all_pairs rate_ge) tabs
  | TPeak => exists k, Forall (bends_at k rate_le) tabs
  | TValley => exists k, Forall (bends_at k rate_ge) tabs
  | _ => False
  end.
(** the binning gs of the prebins meets every request in every scenario *)
Record s_request_met (M : Z) (pr : sb_problem) (g : sc_cfg) (n : nat) (gs : list group) : Prop := {
  sr_bins : within (sg_min_bins g) (sg_max_bins g) (Z.of_nat (length gs));
  sr_trend : s_trend_met (sg_trend g) (map (fun c => rows_of (fst c) (snd c) gs) (pr_cols pr));
  sr_size : forall s len c, nth_error (pr_lens pr) s = Some len -> nth_error (pr_cols pr) s = Some c ->
     Forall (fun r => (forall q, sg_min_size g = Some q -> (q * inject_Z len <= inject_Z (records r))%Q) /\
                      (forall q, sg_max_size g = Some q -> (inject_Z (records r) <= q * inject_Z len)%Q))
            (rows_of (fst c) (snd c) gs);
  sr_pv : Forall (fun c => pvalue_ok (sg_pol g) (sg_test g) (rows_of (fst c) (snd c) gs)) (pr_cols pr);
  sr_md : forall k, sg_md g = Some k -> Forall (fun c => neighbours (apart M k) (rows_of (fst c) (snd c) gs)) (pr_cols pr);
  sr_fixed : forall f i, pr_fixed pr = Some f -> (i < n - 1)%nat -> nth_error f i = Some true -> exists s, In (s, i) gs }.
