(** optbinning/binning/piecewise: transform of a fitted piecewise binning and the part of fit that feeds it.
    x values are codes of ordered values ([Model.Core]); [val] gives the real number a code stands for. Arithmetic is exact;
    infinities and nan of numpy are explicit. *)
From Coq Require Import List ZArith Reals Bool.
From Verif Require Import Model.Arr Model.Core Model.Metrics.
Import ListNotations.
Open Scope R_scope.

(** float64 results *)
Inductive fval := Fin (r : R) | PInf | NInf | NaN.

(** np.polyval(p, x): y = 0; for a in p: y = y * x + a *)
Definition np_polyval (p : list R) (x : R) : R := fold_left (fun y a => y * x + a) p 0.
(** np.clip(v, lb, ub) = minimum(maximum(v, lb), ub), where a bound may be None; transformations.py:31-34 *)
Definition clip (lb ub : option R) (v : R) : R :=
  let v1 := match lb with Some l => Rmax v l | None => v end in
  match ub with Some u => Rmin v1 u | None => v1 end.
(** transformations.py:27-29 and 83-86: the polynomial of the digitized bin, coefficients stored lowest degree first *)
Definition clean_value (val : Z -> R) (splits : list Z) (c : list (list R)) (lb ub : option R) (z : Z) : R :=
  clip lb ub (np_polyval (rev (nth (digitize splits z) c [])) (val z)).

(** transformations.py:41-48: the dict branch; entry number i takes event_rate_special[i] or the number metric_special *)
Fixpoint pw_special_dict (ms : marg R) (rates : list fval) (i : nat) (d : list (Z * list xval)) (x : xval) (cur : fval) : fval :=
  match d with
  | [] => cur
  | (_, codes) :: r =>
      let cur' := if isin codes x then (match ms with Empirical => nth i rates NaN | Const _ v => Fin v end) else cur in
      pw_special_dict ms rates (S i) r x cur'
  end.
(** transformations.py:38-53 *)
Definition pw_special (ms : marg R) (rates : list fval) (sp : special) (x : xval) (cur : fval) : fval :=
  match sp with
  | SpNone => cur
  | SpList l => if isin l x then (match ms with Empirical => nth 0 rates NaN | Const _ v => Fin v end) else cur
  | SpDict d => pw_special_dict ms rates 0 d x cur
  end.
(** transformations.py:19-58, elementwise: clean value, then special codes, then missing *)
Definition pw_apply (val : Z -> R) (splits : list Z) (c : list (list R)) (lb ub : option R) (sp : special) (ms mm : marg R)
    (rates : list fval) (miss : fval) (x : xval) : fval :=
  let start := if is_clean sp x then Fin (clean_value val splits c lb ub (num x)) else Fin 0 in
  let s := pw_special ms rates sp x start in
  if x_isnull x then (match mm with Empirical => miss | Const _ v => Fin v end) else s.

(** binning/transformations.py:38 on an ndarray entry: np.log((1. / er - 1) * n_event / n_nonevent), both totals positive *)
Definition woe_of (nonev ev er : R) : fval :=
  if Req_EM_T er 0 then PInf else
  let a := (1 / er - 1) * ev / nonev in
  if Rlt_dec 0 a then Fin (ln a) else if Req_EM_T a 0 then NInf else NaN.
Definition woe_f (nonev ev : R) (v : fval) : fval := match v with Fin r => woe_of nonev ev r | PInf => NaN | NInf => NaN | NaN => NaN end.
(** ... on a Python float: 1. / 0 raises ZeroDivisionError *)
Definition woe_py (nonev ev er : R) : res fval := if Req_EM_T er 0 then Err OtherError else Ok (woe_of nonev ev er).

Inductive pwmetric := PWEventRate | PWWoe.

(** transformations.py:94-109: rate of every special row, 0 unless both counts are positive *)
Definition special_rate (e ne : Z) : R :=
  if ((0 <? e)%Z && (0 <? ne)%Z)%bool then IZR e / IZR (e + ne) else 0.
(** transformations.py:117-122 *)
Definition missing_rate (e ne : Z) : R := if (0 <? e + ne)%Z then IZR e / IZR (e + ne) else 0.

(** transformations.py:61-137. [specials]: pairs (n_event_special, n_nonevent_special), one per special row. *)
Definition transform_binary_target (val : Z -> R) (splits : list Z) (xs : list xval) (c : list (list R)) (lb ub : option R)
    (n_nonevent n_event : Z) (n_event_special n_nonevent_special : list Z) (n_event_missing n_nonevent_missing : Z)
    (sp : special) (m : pwmetric) (ms mm : marg R) : res (list fval) :=
  let conv := match m with PWWoe => woe_f (IZR n_nonevent) (IZR n_event) | PWEventRate => fun v => v end in
  let rates := map conv (map2 (fun e ne => Fin (special_rate e ne)) n_event_special n_nonevent_special) in
  let er := missing_rate n_event_missing n_nonevent_missing in
  rbind (match mm, m with
         | Empirical, PWWoe => woe_py (IZR n_nonevent) (IZR n_event) er
         | _, _ => Ok (Fin er)
         end) (fun miss =>
  (* 131-135 *)
  Ok (map (fun x => let v := pw_apply val splits c lb ub sp ms mm rates miss x in
                    if is_clean sp x then conv v else v) xs)).

(** ** OptimalPWBinning *)
Record pwfitted := {
  p_splits : list Z;                      (* self._optb.splits *)
  p_c : list (list R);                    (* self._c *)
  p_nev : list Z; p_ev : list Z;          (* the n_nonevent / n_event arrays given to the binning table *)
  p_nev_special : list Z; p_ev_special : list Z;
  p_nev_missing : Z; p_ev_missing : Z }.
(** binning.py:387-412: counts of the clean bins come from the inner binary binning fitted on the clean data only (its last two
    rows, special and missing, are dropped), special and missing counts from target_info on the data set aside.
    [inner] is the inner fit, [coef] the robust regression (ropwr), both functions of the clean data. *)
Definition pw_fit (inner : list xval -> list yval -> res fitted) (coef : list xval -> list yval -> list Z -> list (list R))
    (sp : special) (xs : list xval) (ys : list yval) : res pwfitted :=
  let o := split_masks sp xs ys (map (fun _ => 1%Z) xs) in
  rbind (inner (x_clean o) (y_clean o)) (fun f =>
  let ispec := target_info_special sp (x_special o) (y_special o) (sw_special o) in
  let imiss := (Z.of_nat (count_true (map y_is0 (y_missing o))), Z.of_nat (count_true (mnot (map y_is0 (y_missing o))))) in
  let drop2 := fun l : list Z => removelast (removelast l) in
  Ok {| p_splits := f_splits f;
        p_c := coef (x_clean o) (y_clean o) (f_splits f);
        p_nev := drop2 (f_nev f) ++ map fst ispec ++ [fst imiss];
        p_ev := drop2 (f_ev f) ++ map snd ispec ++ [snd imiss];
        p_nev_special := map fst ispec; p_ev_special := map snd ispec;
        p_nev_missing := fst imiss; p_ev_missing := snd imiss |}).
(** base.py:366-412: the inner OptimalBinning gets the clean data, no special codes and no weights; [pre] is its prebinning *)
Definition inner_fit (d : divergence) (solver : list Z -> list Z -> list bool) (fixed : option (list bool))
    (user : option (list Z)) (pre : list xval -> list yval -> list Z) (xs : list xval) (ys : list yval) : res fitted :=
  match fit_numerical 1 d solver SpNone fixed user (pre xs ys) xs ys (map (fun _ => 1%Z) xs) with
  | Some r => r
  | None => Err OtherError
  end.
(** binning.py:258-303: transform; note the order of the four count arguments (non-events first), lines 298-301 *)
Definition pw_transform (val : Z -> R) (p : pwfitted) (sp : special) (xs : list xval) (m : pwmetric) (ms mm : marg R)
    (lb ub : option R) : res (list fval) :=
  transform_binary_target val (p_splits p) xs (p_c p) lb ub (zsum (p_nev p)) (zsum (p_ev p))
    (p_nev_special p) (p_ev_special p) (p_nev_missing p) (p_ev_missing p) sp m ms mm.
(** binning_statistics.py:118-160: column c0 of the binning table (first coefficient, then the event rates of the special and
    missing rows) and the column of counts *)
Definition pw_table_c0 (p : pwfitted) : list R :=
  map (fun ci => nth 0 ci 0) (p_c p) ++
  map2 (fun e ne => special_rate e ne) (p_ev_special p) (p_nev_special p) ++ [special_rate (p_ev_missing p) (p_nev_missing p)].
Definition pw_table_count (p : pwfitted) : list Z := map2 Z.add (p_ev p) (p_nev p).

(** ** ContinuousOptimalPWBinning.transform: transformations.py:140-191, with the caller continuous_binning.py:283-288.
    Sums are real numbers. *)
Definition mean_or_0 (s : R) (n : Z) : R := if (0 <? n)%Z then s / IZR n else 0.
Definition transform_continuous_target (val : Z -> R) (splits : list Z) (xs : list xval) (c : list (list R)) (lb ub : option R)
    (n_special : list Z) (sum_special : list R) (n_missing : Z) (sum_missing : R) (sp : special) (ms mm : marg R) : list fval :=
  let means := map2 (fun s n => Fin (mean_or_0 s n)) sum_special n_special in
  map (pw_apply val splits c lb ub sp ms mm means (Fin (mean_or_0 sum_missing n_missing))) xs.
(** binning_statistics.py:168-215 and continuous_binning.py:342-351 with weights 1: number of records and sum of the targets
    of the special rows (a dict gives one row per key) and of the missing row; [yr] pairs x with the real target *)
Definition cont_info (l : list (xval * R)) : Z * R := (Z.of_nat (length l), rsum (map snd l)).
Definition cont_special_info (sp : special) (l : list (xval * R)) : list (Z * R) :=
  let aside := filter (fun xy => match sp with SpNone => false | _ => isin (flat_codes sp) (fst xy) end) l in
  match sp with
  | SpDict d => map (fun kv => cont_info (filter (fun xy => isin (snd kv) (fst xy)) aside)) d
  | _ => [cont_info aside]
  end.
Definition cont_missing_info (l : list (xval * R)) : Z * R := cont_info (filter (fun xy => x_isnull (fst xy)) l).
(** continuous_binning.py:250-288 after fit on [l]: [splits], [c] from the inner binning and the regression *)
Definition cpw_transform (val : Z -> R) (splits : list Z) (c : list (list R)) (sp : special) (l : list (xval * R))
    (xs : list xval) (ms mm : marg R) (lb ub : option R) : list fval :=
  let si := cont_special_info sp l in
  transform_continuous_target val splits xs c lb ub (map fst si) (map snd si)
    (fst (cont_missing_info l)) (snd (cont_missing_info l)) sp ms mm.

(** ** piecewise/metrics.py:25-84: the divergences of the binning table *)
Definition fun_divergence (f : R -> R -> R) (n : R) (pi qi : list R) (special : list (R * R)) (n_special : R)
    (missing : option (R * R)) : R :=
  rsum (map2 f pi qi) / n
  + match special with [] => 0 | _ => rsum (map (fun pq => f (fst pq) (snd pq)) special) / n_special end
  + match missing with None => 0 | Some (a, b) => f a b end.
Definition pw_divergence (f : R -> R -> R) (p : pwfitted) (event_rate : list R) : R :=
  let t_nev := IZR (zsum (p_nev p)) in let t_ev := IZR (zsum (p_ev p)) in
  let n := t_nev + t_ev in let pr := t_ev / n in
  let both := fun ne : Z * Z => ((0 <? snd ne)%Z && (0 <? fst ne)%Z)%bool in
  fun_divergence f n (map (fun er => (1 - er) / (1 - pr)) event_rate) (map (fun er => er / pr) event_rate)
    (map (fun ne => (IZR (fst ne) / t_nev, IZR (snd ne) / t_ev))
         (filter both (combine (p_nev_special p) (p_ev_special p))))
    (INR (length (p_ev_special p)))
    (if both (p_nev_missing p, p_ev_missing p) then Some (IZR (p_nev_missing p) / t_nev, IZR (p_ev_missing p) / t_ev) else None).
(** metrics.py:95-104: the event rates are the clipped predictions (1e-8, 1 - 1e-8) on the clean data *)
Definition pw_metric_rates (val : Z -> R) (p : pwfitted) (zs : list Z) : list R :=
  map (clean_value val (p_splits p) (p_c p) (Some (1 / 100000000)) (Some (1 - 1 / 100000000))) zs.
