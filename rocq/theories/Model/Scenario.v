(** Scenario-based binning: binning/uncertainty/binning_scenarios.py (SBOptimalBinning), the scenario model of cp.py
    (175-260, 318-343, 381-393), preprocessing.py:288-320, model_data.py:177-242.
    Not modelled: the pre-binning method (an oracle for the pooled data), the CP-SAT search (an oracle for the posed
    problem), float rounding of the weight scaling, checks of parameters that never change, the verbose log. *)
From Coq Require Import List ZArith Bool Arith QArith Qround.
From Verif Require Import Model.Arr Model.Core Model.CP Model.Multi Model.Lifecycle.
Import ListNotations.
Open Scope Z_scope.

(** one scenario: the arrays X[s], Y[s] *)
Definition scen := (list xval * list yval)%type.
(** [split_data] of a scenario (preprocessing.py:302-308), all records with weight 1 *)
Definition scen_split (sp : special) (s : scen) : split_out :=
  split_masks sp (fst s) (snd s) (repeat 1 (length (fst s))).
Definition scen_data (sp : special) (s : scen) : list csample := to_csamples (scen_split sp s).

(** binning_scenarios.py:683-693: n_nonevent[:, s], n_event[:, s] *)
Definition scen_cols (splits : list Z) (datas : list (list csample)) : list (list Z * list Z) :=
  map (fun d => (counts 1 (digitize splits) true d (S (length splits)),
                 counts 1 (digitize splits) false d (S (length splits)))) datas.

(** 674-728. [fixed], [user]: self._user_splits_fixed, self._user_splits (the private copies made by the
    constructor); [mprebins] is the result record of Model/Multi.v. [None]: out of fuel. *)
Fixpoint compute_prebins_s (fuel : nat) (datas : list (list csample)) (fixed : option (list bool))
    (user : option (list Z)) (nref : nat) (splits : list Z) : option (res mprebins) :=
  match fuel with
  | O => None
  | S fuel' =>
    match splits with
    | [] => Some (Ok {| mp_splits := []; mp_cols := []; mp_fixed := fixed; mp_user := user; mp_nref := nref |})
    | _ =>
      let cols := scen_cols splits datas in
      let mask_remove := remove_mask_m (S (length splits)) cols in
      if any mask_remove then
        let ms := mask_splits mask_remove in
        match fixed with
        | Some f => if any (mand f ms) then Some (Err ValueError)
                    else compute_prebins_s fuel' datas (Some (select (mnot ms) f))
                           (option_map (select (mnot ms)) user) (S nref) (select (mnot ms) splits)
        | None => compute_prebins_s fuel' datas None user (S nref) (select (mnot ms) splits)
        end
      else Some (Ok {| mp_splits := splits; mp_cols := cols; mp_fixed := fixed; mp_user := user; mp_nref := nref |})
    end
  end.

(** cp.py:189-191: [10 ** np.abs(np.log10(np.min(w)))] in exact arithmetic, then int64 truncation of w[s] * sw
    (all factors positive: the floor). A weight <= 0 makes log10 nan or -inf and the conversion raises. *)
Fixpoint qmin (a : Q) (l : list Q) : Q :=
  match l with [] => a | b :: r => qmin (if Qle_bool b a then b else a) r end.
Definition weight_scale (m : Q) : Q := (if Qle_bool 1 m then m else / m)%Q.
Definition int_weights (w : list Q) : option (list Z) :=
  match w with
  | [] => None
  | a :: r => let m := qmin a r in
              if Qle_bool m 0 then None else Some (map (fun v => Qfloor (v * weight_scale m)%Q) w)
  end.

(** What the optimiser is given (build_model_scenarios and the BinningCP constructor, 757-774): prebin counts, scenario
    sizes (n_samples of every scenario, all records), integer weights, user_splits_fixed. *)
Record sb_problem := { pr_cols : list (list Z * list Z); pr_lens : list Z; pr_w : list Z; pr_fixed : option (list bool) }.

(** The public attributes user_splits, user_splits_fixed (with a flag: it is now a numpy array) and their private copies *)
Record sb_obj := { sb_user : option (list Z); sb_fixed : option (bool * list bool);
                   sb_user_p : option (list Z); sb_fixed_p : option (list bool) }.
(** 264-320 *)
Definition sb_new (user : option (list Z)) (fixed : option (list bool)) : sb_obj :=
  {| sb_user := user; sb_fixed := option_map (fun f => (false, f)) fixed; sb_user_p := user; sb_fixed_p := fixed |}.

(** environment: special_codes (None or a list), rounding of split_digits, pre-binning of the pooled clean data, solver *)
Record sb_env := { se_sp : special; se_rnd : Z -> Z; se_prebin : list csample -> list Z;
                   se_solver : sb_problem -> list bool }.

(** 119-133, the checks on attributes that change; isinstance(np.bool_, bool) is False *)
Definition sb_params_ok (o : sb_obj) : bool :=
  match sb_fixed o with
  | None => true
  | Some (np, f) => match sb_user o with
                    | None => false
                    | Some u => (negb np || (length f =? 0)%nat) && (length u =? length f)%nat
                    end
  end.

Record sfitted := { sf_splits : list Z; sf_solution : list bool; sf_tables : list (list Z * list Z) (* binning_table_scenario *);
                    sf_nev : list Z; sf_ev : list Z (* binning_table *); sf_prebins : mprebins; sf_problem : sb_problem }.

(** 570-593: the counts of one scenario. target_info (binning_statistics.py:111-133): number of y == 0 and the rest *)
Definition scen_table (sp : special) (sol : list bool) (s : scen) (c : list Z * list Z) : option (list Z * list Z) :=
  let o := scen_split sp s in
  let i_s := target_info_samples (y_special o) [] in
  let i_m := target_info_samples (y_missing o) [] in
  match bin_info_1 1 sol (fst c) None [fst i_s] (fst i_m), bin_info_1 1 sol (snd c) None [snd i_s] (snd i_m) with
  | Some a, Some b => Some (a, b)
  | _, _ => None
  end.
(** 585-586: [self._n_nonevent += s_n_nonevent], starting at the integer 0 *)
Definition add_tables (l : list (list Z)) : list Z :=
  match l with [] => [] | t :: r => fold_left (map2 Z.add) r t end.

(** 469-623 and 730-789. *)
Definition sb_fit (e : sb_env) (o : sb_obj) (X : list scen) (w : option (list Q)) : sb_obj * option (res sfitted) :=
  if negb (sb_params_ok o) then (o, Some (Err ValueError)) else
  if match w with Some v => negb (length v =? length X)%nat | None => false end then (o, Some (Err ValueError)) else
  match X with [] => (o, Some (Err ValueError)) | s0 :: _ =>
  let datas := map (scen_data (se_sp e)) X in
  (* 514-534; np.argsort applied to user_splits (a local copy) and to self.user_splits_fixed *)
  let pre := match sb_user o with
             | Some u => if (length u =? 0)%nat || negb (distinct u) then None
                         else Some (sorted_splits u, option_map (fun nf => (true, permuted u (snd nf))) (sb_fixed o))
             | None => Some (se_prebin e (concat datas), sb_fixed o)
             end in
  match pre with
  | None => (o, Some (Err ValueError))
  | Some (splits0, fixed1) =>
    let o1 := {| sb_user := sb_user o; sb_fixed := fixed1; sb_user_p := sb_user_p o; sb_fixed_p := sb_fixed_p o |} in
    let fp := match fixed1 with Some _ => sb_fixed_p o | None => None end in
    match compute_prebins_s (S (length splits0)) datas fp (sb_user_p o) 0 (map (se_rnd e) splits0) with
    | None => (o1, None)
    | Some (Err x) => (o1, Some (Err x))
    | Some (Ok pb) =>
      let o2 := {| sb_user := sb_user o; sb_fixed := fixed1;
                   sb_user_p := mp_user pb; sb_fixed_p := match fixed1 with Some _ => mp_fixed pb | None => sb_fixed_p o end |} in
      match mp_splits pb with
      | [] => (* 733-744 then 570-583: x_clean[0].min(), then n_nonevent[:, 0] of a one-dimensional empty array *)
              (o2, Some (Err (match x_clean (scen_split (se_sp e) s0) with [] => ValueError | _ => IndexError end)))
      | _ =>
        match (match w with Some v => int_weights v | None => Some (repeat 1 (length X)) end) with
        | None => (o2, Some (Err OtherError))
        | Some wi =>
          let pr := {| pr_cols := mp_cols pb; pr_lens := map (fun s => Z.of_nat (length (fst s))) X; pr_w := wi;
                       pr_fixed := option_map snd fixed1 |} in
          let sol := se_solver e pr in
          match all_some (map2 (scen_table (se_sp e) sol) X (mp_cols pb)) with
          | None => (o2, Some (Err IndexError))
          | Some ts => (o2, Some (Ok {| sf_splits := select (init sol) (mp_splits pb); sf_solution := sol; sf_tables := ts;
                                        sf_nev := add_tables (map fst ts); sf_ev := add_tables (map snd ts);
                                        sf_prebins := pb; sf_problem := pr |}))
          end
        end
      end
    end
  end
  end.

(** ** The constraint model, cp.py:175-260 *)
Record sc_cfg := { sg_trend : trend; sg_min_bins : option Z; sg_max_bins : option Z;
  sg_min_size : option Q; sg_max_size : option Q (* shares *);
  sg_pol : pvalue_policy; sg_test : Z * Z -> Z * Z -> bool;
  sg_md : option Z (* int(min_event_rate_diff * M), None if min_event_rate_diff == 0 *) }.

(** 745-756: [int(np.ceil(share * n_samples_scenario))] *)
Definition share_size (share : option Q) (len : Z) : option Z :=
  option_map (fun q => Qceiling (q * inject_Z len)%Q) share.

(** cp.py:218-246; no pre-processing cuts (405, 424: _is_scenario_binning), one change point for all scenarios.
    "peak_heuristic" etc. are rejected by _check_parameters. *)
Definition sc_trend (n : nat) (M : Z) (cols : list (list Z * list Z)) (t : trend) (X : mat) : Prop :=
  let all (P : mat -> Prop) := Forall (fun c => P (rate_mat M (fst c) (snd c))) cols in
  match t with
  | TAscending => all (fun D => ascending n D M false X)
  | TDescending => all (fun D => descending n D M false X)
  | TConcave => all (fun D => concave n D M X)
  | TConvex => all (fun D => convex n D M X)
  | TPeak => exists y p, change_point n y p /\ all (fun D => peak n D M y X)
  | TValley => exists y p, change_point n y p /\ all (fun D => valley n D M y X)
  | _ => True
  end.

(** cp.py:205-258. The size constraints (381-393) are those of [min_max_count] on the records of a scenario. *)
Definition sc_feasible (n : nat) (M : Z) (pr : sb_problem) (g : sc_cfg) (X : mat) : Prop :=
  bool_vars n X /\ unique_assignment n X /\ continuity n X /\
  min_max_bins n (sg_min_bins g) (sg_max_bins g) X /\
  Forall2 (fun len c => min_max_count n (share_size (sg_min_size g) len) (share_size (sg_max_size g) len)
                          (fun j => nth j (fst c) 0 + nth j (snd c) 0) X) (pr_lens pr) (pr_cols pr) /\
  sc_trend n M (pr_cols pr) (sg_trend g) X /\
  Forall (fun c => violation_constrs (pviol_of (sg_pol g) (sg_test g) (fst c) (snd c)) X) (pr_cols pr) /\
  Forall (fun c => violation_constrs (dviol_of (sg_md g) M (fst c) (snd c)) X) (pr_cols pr) /\
  fixed_splits n (pr_fixed pr) X.

(** cp.py:199-203: [phi totals] is the scaled, truncated Jeffrey term of a candidate bin of the scenario *)
Definition sc_objective (n : nat) (phi : Z * Z -> Z * Z -> Z) (pr : sb_problem) (X : mat) : Z :=
  zsum (map2 (fun w c => w * objective n (div_mat (phi (zsum (fst c), zsum (snd c))) (fst c) (snd c)) X)
             (pr_w pr) (pr_cols pr)).
