(** SBOptimalBinning as an object over histories of calls: binning/uncertainty/binning_scenarios.py:264-789, with what each failing
    fit has already assigned, transform, the tables and the json methods inherited from binning.py:1180-1234; and
    split_data_scenarios (preprocessing.py:288-318). Real numbers instead of floats. Not modelled: metric "bins" (labels: Model/Label.v),
    set_params, the flags of the tables (Model/Lifecycle.v), timings, the verbose log. *)
From Coq Require Import List ZArith Bool Arith QArith Reals.
From Verif Require Import Model.Arr Model.Core Model.CP Model.Multi Model.Metrics Model.Lifecycle Model.Scenario.
Import ListNotations.
Open Scope Z_scope.

(** What no method changes: special_codes and its container, the rounding of split_digits, the container of user_splits, whether
    the other parameters are accepted (32-149), and three oracles: the prebinning method (given the pooled clean records and their
    weights; it may raise), the solver with its status (it may raise), *)
Record lenv := mkLE {
  l_sp : special; l_spc : container; l_rnd : Z -> Z; l_ucont : container; l_valid : bool;
  l_prebin : list csample -> option (list Q) -> res (list Z);
  l_solve : sb_problem -> res (Z * list bool) }.

(** The arguments of fit. [sd_int]: X[s] has an integer dtype; [sd_lists]: the exception of the checks 152-167 of X and Y;
    [sd_split]: the exception of split_data for some scenario (inconsistent lengths, or rejected by check_array if check_input). *)
Record sdata := mkSD { sd_X : list scen; sd_int : list bool; sd_w : option (list Q); sd_lists : option exn; sd_split : option exn }.

(** The attributes. Not kept: _n_samples, _n_samples_scenario, the special and missing counts (written before use in every fit),
    _optimizer, _solution. [q_counts]: _n_nonevent and _n_event, [Some None] when they are the integer 0 of 566-567. *)
Record sbo := mkSB {
  q_par : sb_obj; q_nref : nat; q_nscen : option nat; q_npre : option nat; q_status : option Z; q_splits : option (list Z);
  q_counts : option (option (list Z * list Z)); q_tables : option (list table); q_table : option table; q_fitted : bool }.
(** 264-335 *)
Definition sbo_new (user : option (list Z)) (fixed : option (list bool)) : sbo :=
  mkSB (sb_new user fixed) 0 None None None None None None None false.

(** preprocessing.py:288-318: pooled clean records and, with weights, the weight of the scenario of each *)
Definition pooled (sp : special) (X : list scen) : list csample := concat (map (scen_data sp) X).
Definition pooled_weights (sp : special) (X : list scen) (w : option (list Q)) : option (list Q) :=
  option_map (fun v => concat (map2 (fun s q => repeat q (length (x_clean (scen_split sp s)))) X v)) w.

(** 514-534, 627-645: split points before the refinement, and user_splits_fixed (permuted, now a numpy array) *)
Definition pre_splits (e : lenv) (p : sb_obj) (d : sdata) : res (list Z * option (bool * list bool)) :=
  match sb_user p with
  | Some u => if (length u =? 0)%nat || negb (distinct u) then Err ValueError
              else Ok (sorted_splits u, option_map (fun nf => (true, permuted u (snd nf))) (sb_fixed p))
  | None => match sd_X d with
            | [] => Err ValueError                                                 (* no samples: rejected by the method *)
            | X => match l_prebin e (pooled (l_sp e) X) (pooled_weights (l_sp e) X (sd_w d)) with
                   | Ok s => Ok (s, sb_fixed p) | Err k => Err k end
            end
  end.

(** 674-728: the private copies and the number of refinements when the refinement returns or raises *)
Fixpoint refine_attrs (fuel : nat) (datas : list (list csample)) (fixed : option (list bool)) (user : option (list Z)) (nref : nat)
    (splits : list Z) : option (list bool) * option (list Z) * nat :=
  match fuel with
  | O => (fixed, user, nref)
  | S fuel' =>
    match splits with
    | [] => (fixed, user, nref)
    | _ =>
      let mask_remove := remove_mask_m (S (length splits)) (scen_cols splits datas) in
      if any mask_remove then
        let ms := mask_splits mask_remove in
        match fixed with
        | Some f => if any (mand f ms) then (fixed, user, S nref)
                    else refine_attrs fuel' datas (Some (select (mnot ms) f)) (option_map (select (mnot ms)) user) (S nref) (select (mnot ms) splits)
        | None => refine_attrs fuel' datas None user (S nref) (select (mnot ms) splits)
        end
      else (fixed, user, nref)
    end
  end.

(** 575-593: one table per scenario, and the running sums *)
Definition add_counts (c : option (list Z * list Z)) (t : list Z * list Z) : list Z * list Z :=
  match c with None => t | Some (a, b) => (map2 Z.add a (fst t), map2 Z.add b (snd t)) end.
Fixpoint post_loop (e : lenv) (user : option (container * list Z)) (splits : list Z) (sol : list bool) (X : list scen) (ints : list bool)
    (cols : list (list Z * list Z)) (acc : list table) (c : option (list Z * list Z)) : list table * option (list Z * list Z) * res unit :=
  match X with
  | [] => (acc, c, Ok tt)
  | s :: r =>
    match map num (x_clean (scen_split (l_sp e) s)) with
    | [] => (acc, c, Err ValueError)                                               (* 576: min() of an empty array *)
    | l =>
      match cols with
      | [] => (acc, c, Err IndexError)
      | col :: cols' =>
        match scen_table (l_sp e) sol s col with
        | None => (acc, c, Err IndexError)
        | Some t =>
            post_loop e user splits sol r (tl ints) cols'
              (acc ++ [mkT (l_sp e) (l_spc e) splits NdArray (fst t) (snd t) (zmin l) (zmax l) (hd false ints) PyList user false false])
              (Some (add_counts c t))
        end
      end
    end
  end.
(** 572-583: the smallest minimum and the largest maximum, with their types *)
Fixpoint pick (better : Z -> Z -> bool) (m : Z * bool) (l : list (Z * bool)) : Z * bool :=
  match l with [] => m | t :: r => pick better (if better (fst t) (fst m) then t else m) r end.
Definition extreme (better : Z -> Z -> bool) (l : list (Z * bool)) : Z * bool := match l with [] => (0, false) | t :: r => pick better t r end.

Definition set_nscen (o : sbo) (n : nat) : sbo :=
  mkSB (q_par o) (q_nref o) (Some n) (q_npre o) (q_status o) (q_splits o) (q_counts o) (q_tables o) (q_table o) (q_fitted o).
Definition set_par (o : sbo) (p : sb_obj) (nref : nat) : sbo :=
  mkSB p nref (q_nscen o) (q_npre o) (q_status o) (q_splits o) (q_counts o) (q_tables o) (q_table o) (q_fitted o).
Definition set_npre (o : sbo) (n : nat) : sbo :=
  mkSB (q_par o) (q_nref o) (q_nscen o) (Some n) (q_status o) (q_splits o) (q_counts o) (q_tables o) (q_table o) (q_fitted o).
Definition set_res (o : sbo) (st : Z) (s : list Z) : sbo :=
  mkSB (q_par o) (q_nref o) (q_nscen o) (q_npre o) (Some st) (Some s) (q_counts o) (q_tables o) (q_table o) (q_fitted o).
Definition set_post (o : sbo) (c : option (list Z * list Z)) (ts : list table) : sbo :=
  mkSB (q_par o) (q_nref o) (q_nscen o) (q_npre o) (q_status o) (q_splits o) (Some c) (Some ts) (q_table o) (q_fitted o).
Definition set_tab (o : sbo) (t : option table) : sbo :=
  mkSB (q_par o) (q_nref o) (q_nscen o) (q_npre o) (q_status o) (q_splits o) (q_counts o) (q_tables o) t true.

(** 595-609 *)
Definition main_table (e : lenv) (user : option (container * list Z)) (splits : list Z) (c : option (list Z * list Z)) (ts : list table) : table :=
  let mn := extreme Z.ltb (map (fun t => (t_min t, t_int t)) ts) in
  let mx := extreme Z.gtb (map (fun t => (t_max t, t_int t)) ts) in
  mkT (l_sp e) (l_spc e) splits NdArray (match c with Some p => fst p | None => [] end) (match c with Some p => snd p | None => [] end)
      (fst mn) (fst mx) (snd mn || snd mx) PyList user false false.

(** 564-619 *)
Definition sb_post (e : lenv) (o : sbo) (d : sdata) (sol : list bool) (splits : list Z) (cols : list (list Z * list Z)) : sbo * res unit :=
  let user := option_map (pair (l_ucont e)) (sb_user (q_par o)) in
  let '(ts, c, r) := post_loop e user splits sol (sd_X d) (sd_int d) cols [] None in
  let o' := set_post o c ts in
  match r with
  | Err k => (o', Err k)
  | Ok _ => (set_tab o' (Some (main_table e user splits c ts)), Ok tt)
  end.

(** 730-789 *)
Definition sb_optimise (e : lenv) (o : sbo) (d : sdata) (pb : mprebins) : sbo * res unit :=
  match mp_splits pb with
  | [] =>                                                                          (* 733-744; then n_nonevent[:, 0] has no column *)
      sb_post e (set_res o 0 []) d [] [] []
  | splits =>
    match sd_X d with
    | [] => (o, Err ValueError)                                                    (* np.min of no weights *)
    | _ =>
      match match sd_w d with Some v => int_weights v | None => Some (repeat 1 (length (sd_X d))) end with
      | None => (o, Err OtherError)
      | Some wi =>
        match l_solve e {| pr_cols := mp_cols pb; pr_lens := map (fun s => Z.of_nat (length (fst s))) (sd_X d); pr_w := wi;
                           pr_fixed := option_map snd (sb_fixed (q_par o)) |} with
        | Err k => (o, Err k)
        | Ok (st, sol) => let s := select (init sol) splits in sb_post e (set_res o st s) d sol s (mp_cols pb)
        end
      end
    end
  end.

(** 469-544 *)
Definition sb_fit_obj (e : lenv) (o : sbo) (d : sdata) : sbo * res unit :=
  if negb (l_valid e) || negb (sb_params_ok (q_par o)) then (o, Err ValueError) else
  match sd_lists d with Some k => (o, Err k) | None =>
  if match sd_w d with Some v => negb (length v =? length (sd_X d))%nat | None => false end then (o, Err ValueError) else
  let o := set_nscen o (length (sd_X d)) in
  match sd_split d with Some k => (o, Err k) | None =>
  match pre_splits e (q_par o) d with
  | Err k => (o, Err k)
  | Ok (splits0, fixed1) =>
      let p := q_par o in
      let datas := map (scen_data (l_sp e)) (sd_X d) in
      let fp := match fixed1 with Some _ => sb_fixed_p p | None => None end in
      let s := map (l_rnd e) splits0 in
      let '(fx, us, k) := refine_attrs (S (length splits0)) datas fp (sb_user_p p) 0 s in
      let o := set_par o {| sb_user := sb_user p; sb_fixed := fixed1; sb_user_p := us;
                            sb_fixed_p := match fixed1 with Some _ => fx | None => sb_fixed_p p end |} (q_nref o + k) in
      match compute_prebins_s (S (length splits0)) datas fp (sb_user_p p) 0 s with
      | None => (o, Err OtherError)                                                (* out of fuel: does not happen *)
      | Some (Err k) => (o, Err k)
      | Some (Ok pb) => sb_optimise e (set_npre o (match mp_splits pb with [] => 0%nat | l => S (length l) end)) d pb
      end
  end
  end
  end.

(** transform, 451-467; [SUnknown]: a metric that is none of "woe", "event_rate", "indices", "bins" *)
Inductive smetric := SIndices (ms mm : marg Z) | SValue (m : bmetric) (ms mm : marg R) | SUnknown.
Inductive sanswer := SAInd (l : list Z) | SAVal (l : list R).
Definition sb_transform (e : lenv) (o : sbo) (xs : list xval) (m : smetric) : res sanswer :=
  if negb (q_fitted o) then Err NotFitted else
  match m with
  | SUnknown => Err ValueError
  | SIndices ms mm =>
      match q_splits o with
      | None => Err TypeError                                                      (* len(None) *)
      | Some s => match all_res (map (transform_indices s (l_sp e) ms mm) xs) with Ok l => Ok (SAInd l) | Err k => Err k end
      end
  | SValue b ms mm =>
      match q_splits o with
      | None => Err TypeError
      | Some s =>
          match q_counts o with
          | None => Err TypeError
          | Some None => Err OtherError                                            (* the integer 0 has no sum() *)
          | Some (Some (nev, ev)) =>
              match all_res (map (transform_binary_num s (l_sp e) b ms mm UNone nev ev) xs) with Ok l => Ok (SAVal l) | Err k => Err k end
          end
      end
  end.

(** Calls. [SScenTable id]: id None: not an integer. [SInfo ok]: print_level accepted. Paths: None is the value None. *)
Inductive sop :=
| SFit (d : sdata) | SFitTransform (d : sdata) (xs : list xval) (m : smetric) | STransform (xs : list xval) (m : smetric)
| SSplits | SStatus | STable | SScenTable (id : option Z) | SInfo (ok : bool) | SToJson (p : option Z) | SReadJson (p : Z).
Inductive sval := SVNone | SVAnswer (a : sanswer) | SVSplits (s : option (list Z)) | SVStatus (s : option Z) | SVTable (t : option table)
| SVInfo (status : option Z) (n_prebins : option nat) (n_refinements : nat).

(** 791-811 *)
Definition scen_tab (o : sbo) (id : option Z) : res sval :=
  if negb (q_fitted o) then Err NotFitted else
  match id with
  | None => Err ValueError
  | Some i =>
      if i <? 0 then Err ValueError else
      match q_nscen o with
      | None => Err TypeError                                                      (* 0 <= id < None *)
      | Some n =>
          if Z.of_nat n <=? i then Err ValueError else
          match q_tables o with
          | None => Err TypeError
          | Some ts => match nth_error ts (Z.to_nat i) with Some t => Ok (SVTable (Some t)) | None => Err IndexError end
          end
      end
  end.

(** binning.py:1180-1234. cat_others is None: json can encode it, and it stays None. The files are those written by such objects. *)
Definition sb_to_json (o : sbo) (fs : fsys) (p : option Z) : fsys * res sval :=
  match p with
  | None => (fs, Err ValueError)
  | Some p =>
      if negb (q_fitted o) then (fs, Err NotFitted) else
      match q_table o with
      | None => (fs, Err OtherError)                                               (* None.name *)
      | Some t => if json_ok t then (fwrite fs p (Json (to_j t)), Ok SVNone) else (fwrite fs p Truncated, Err TypeError)
      end
  end.
Definition sb_of_j (j : jtable) : table :=
  mkT (j_special j) (match j_special j with SpList _ => NdArray | _ => PyList end) (j_splits j) NdArray
      (j_nev j) (j_ev j) (j_min j) (j_max j) false PyList (option_map (fun u => (NdArray, u)) (j_user j)) false false.
Definition sb_read_json (o : sbo) (fs : fsys) (p : Z) : sbo * res sval :=
  match fs p with
  | None => (set_tab o (q_table o), Err OtherError)
  | Some Truncated => (set_tab o (q_table o), Err ValueError)
  | Some (Json j) => (set_tab o (Some (sb_of_j j)), Ok SVNone)
  end.

Definition sworld := (sbo * fsys)%type.
Definition sb_guard (o : sbo) (v : sval) : res sval := if negb (q_fitted o) then Err NotFitted else Ok v.
Definition sb_step (e : lenv) (w : sworld) (c : sop) : sworld * res sval :=
  let (o, fs) := w in
  match c with
  | SFit d => let (o', r) := sb_fit_obj e o d in ((o', fs), match r with Ok _ => Ok SVNone | Err k => Err k end)
  | SFitTransform d xs m =>                                                        (* 405-407 *)
      let (o', r) := sb_fit_obj e o d in
      ((o', fs), match r with
                 | Ok _ => match sb_transform e o' xs m with Ok a => Ok (SVAnswer a) | Err k => Err k end
                 | Err k => Err k end)
  | STransform xs m => (w, match sb_transform e o xs m with Ok a => Ok (SVAnswer a) | Err k => Err k end)
  | SSplits => (w, sb_guard o (SVSplits (q_splits o)))
  | SStatus => (w, sb_guard o (SVStatus (q_status o)))
  | STable => (w, sb_guard o (SVTable (q_table o)))
  | SScenTable id => (w, scen_tab o id)
  | SInfo ok => (w, if negb (q_fitted o) then Err NotFitted else if negb ok then Err ValueError else Ok (SVInfo (q_status o) (q_npre o) (q_nref o)))
  | SToJson p => let (fs', r) := sb_to_json o fs p in ((o, fs'), r)
  | SReadJson p => let (o', r) := sb_read_json o fs p in ((o', fs), r)
  end.
Fixpoint sb_exec (e : lenv) (w : sworld) (h : list sop) : sworld * list (res sval) :=
  match h with [] => (w, []) | c :: r => let (w', v) := sb_step e w c in let (w'', l) := sb_exec e w' r in (w'', v :: l) end.
