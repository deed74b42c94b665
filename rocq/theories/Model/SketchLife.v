(** OptimalBinningSketch as an object: the attributes left by any sequence of add, merge and solve
    (optbinning/binning/distributed/binning_sketch.py:405-455, 457-478, 527-647, 702-812, 936, 948-1010),
    for sketch "gk" (dtype "numerical") and for dtype "categorical" with cat_heuristic=False.
    All the objects of one history are created with the same parameters (otherwise merge raises, line 535), and an
    object given to merge is not used afterwards (what happens when it is: C34).
    Timings, logging and the divergence column of the statistics are not modelled. *)
From Coq Require Import List ZArith Bool QArith.
From Verif Require Import Model.Arr Model.Core Model.GK Model.BSketch Model.OptSketch.
Import ListNotations.
Open Scope Z_scope.

(** ** BSketch by value (the objects of Model/BSketch.v dereferenced) *)
(** bsketch.py:85-103 *)
Definition bd_new (e : Q) : bdata := mkBD (gk_new e) (gk_new e) 0 0 0 0.
(** bsketch.py:105-146 *)
Definition bd_add (b : bdata) (l : list (rec_ Z)) : bdata :=
  mkBD (gk_adds (bd_e b) (clean_of true l)) (gk_adds (bd_ne b) (clean_of false l))
       (bd_me b + countb (fun r => is_missing r && ry r) l) (bd_mne b + countb (fun r => is_missing r && negb (ry r)) l)
       (bd_se b + countb (fun r => is_special r && ry r) l) (bd_sne b + countb (fun r => is_special r && negb (ry r)) l).
(** bsketch.py:176-206, 220-228: the receiving sketch. An exception inside the second GK merge would leave the first
    one done. *)
Definition bd_merge (b o : bdata) : bdata * res unit :=
  if Z.eqb (gcount (bd_e o)) 0 && Z.eqb (gcount (bd_ne o)) 0 then (b, Ok tt)
  else if Z.eqb (gcount (bd_e b)) 0 && Z.eqb (gcount (bd_ne b)) 0 then (o, Ok tt)
  else match gk_merge (bd_e b) (bd_e o) with
       | Err x => (b, Err x)
       | Ok p =>
           match gk_merge (bd_ne b) (bd_ne o) with
           | Err x => (mkBD (fst p) (bd_ne b) (bd_me b) (bd_mne b) (bd_se b) (bd_sne b), Err x)
           | Ok q => (mkBD (fst p) (fst q) (bd_me b + bd_me o) (bd_mne b + bd_mne o) (bd_se b + bd_se o) (bd_sne b + bd_sne o), Ok tt)
           end
       end.
(** bsketch.py:46-62: computing the bins compresses both sketches *)
Definition bd_flush (b : bdata) : bdata :=
  mkBD (flush (bd_e b)) (flush (bd_ne b)) (bd_me b) (bd_mne b) (bd_se b) (bd_sne b).
(** bsketch.py:260-268 *)
Definition bd_n (b : bdata) : Z := bd_n_event b + bd_n_nonevent b.

(** ** The object, dtype "numerical" *)
(** [splits, (nonevents, events)]: the split points and the counts of the bins, special, missing *)
Definition fitted_rows := (list Z * (list Z * list Z))%type.
(** binning_sketch.py:414-453. [o_splits], [o_rows]: `_splits_optimal`, `_n_nonevent`, `_n_event`, read by [splits] and
    [transform]; [o_table]: what the BinningTable instance was built with; [o_stats]: `_solve_stats`, most recent first:
    n_solve, n_add, n_records; [o_opt]: `_optimizer` exists. *)
Record nst := mkN { o_data : option bdata; o_adds : nat; o_solves : nat; o_solved : bool; o_splits : list Z;
                    o_rows : list Z * list Z; o_table : fitted_rows; o_stats : list (nat * (nat * Z)); o_opt : bool; o_flag : bool }.
Definition n_new : nst := mkN None 0 0 false [] ([], []) ([], ([], [])) [] false false.
Definition set_data (s : nst) (b : bdata) : nst :=
  mkN (Some b) (o_adds s) (o_solves s) (o_solved s) (o_splits s) (o_rows s) (o_table s) (o_stats s) (o_opt s) (o_flag s).

(** binning_sketch.py:457-478. [None]: split_data raises (inconsistent lengths, check_input). *)
Definition n_add (e : Q) (s : nst) (c : option (list (rec_ Z))) : nst * res unit :=
  let b := match o_data s with Some b => b | None => bd_new e end in
  match c with
  | None => (set_data s b, Err ValueError)
  | Some l =>
      (mkN (Some (bd_add b l)) (S (o_adds s)) (o_solves s) (o_solved s) (o_splits s) (o_rows s) (o_table s) (o_stats s) (o_opt s) (o_flag s),
       Ok tt)
  end.

(** binning_sketch.py:527-541. An object without data has `_bsketch` None: AttributeError. *)
Definition n_merge (s o : nst) : nst * res unit :=
  match o_data s, o_data o with
  | Some b, Some c => let p := bd_merge b c in (set_data s (fst p), snd p)
  | _, _ => (s, Err OtherError)
  end.

(** binning_sketch.py:748-750: a prebin without event or non-event was seen and the divergence allows it *)
Definition sees_empty (d : divergence) (b : bdata) (splits : list Z) : bool :=
  negb (refines d) && any (map2 (fun a b => (a =? 0) || (b =? 0)) (gk_bins splits (bd_ne b)) (gk_bins splits (bd_e b))).

(** The optimizer (824-934): the sticky flag `_flag_min_n_event_nonevent`, the number of records, the prebins; it may
    raise. *)
Definition opt_solver := bool -> Z -> list Z -> list Z -> res (list bool).

(** binning_sketch.py:570-647, 702-726, 743-761, 808-826, 936, 948-969 *)
Definition n_solve (d : divergence) (solver : opt_solver) (m : nat) (s : nst) : nst * res unit :=
  match o_adds s with
  | O => (s, Err NotFitted)                                                        (* 581-582 *)
  | S _ =>
    match o_data s with
    | None => (s, Err OtherError)
    | Some b =>
      match merge_sketches b with                                                  (* 712 *)
      | Err x => (s, Err x)
      | Ok p =>
        let b1 := snd p in
        match quantiles (fst p) (percentiles m) with                               (* 715-718 *)
        | Err x => (set_data s b1, Err x)
        | Ok t =>
          let b2 := bd_flush b1 in
          let s2 := mkN (Some b2) (o_adds s) (o_solves s) (o_solved s) (o_splits s) (o_rows s) (o_table s) (o_stats s)
                        (o_opt s) (o_flag s || sees_empty d b1 (fst t)) in
          match sk_prebins (S (length (fst t))) d b1 (fst t) with                  (* 726 *)
          | None => (s2, Err OtherError)
          | Some (Err x) => (s2, Err x)
          | Some (Ok x) =>
            let splits := fst (fst x) in let nev := snd (fst x) in let ev := snd x in
            let few := (length nev <=? 1)%nat in
            match (if few then Ok (repeat false (length splits)) else solver (o_flag s2) (bd_n b2) nev ev) with
            | Err y => (s2, Err y)
            | Ok sol =>
              let so := optimal_splits (length nev) splits sol in                  (* 815, 936 *)
              let opt := o_opt s || negb few in
              let nev := match splits with [] => [bd_n_nonevent b2] | _ => nev end in
              let ev := match splits with [] => [bd_n_event b2] | _ => ev end in
              match bin_info_1 1 sol nev None [bd_sne b2] (bd_mne b2), bin_info_1 1 sol ev None [bd_se b2] (bd_me b2) with
              | Some a, Some c =>
                  (mkN (Some b2) (o_adds s) (S (o_solves s)) true so (a, c) (so, (a, c))
                       ((S (o_solves s), (o_adds s, bd_n b2)) :: o_stats s) opt (o_flag s2), Ok tt)
              | _, _ =>
                  (mkN (Some b2) (o_adds s) (o_solves s) (o_solved s) so (o_rows s) (o_table s) (o_stats s) opt (o_flag s2),
                   Err IndexError)
              end
            end
          end
        end
      end
    end
  end.

(** What the user can read: [splits] and [transform] (649-700, 984-990), [binning_table] (971-982), [information]
    (480-525: reads `_optimizer`, only created by _fit_optimizer, line 930). *)
Definition n_fitted (s : nst) : res fitted_rows := if o_solved s then Ok (o_splits s, o_rows s) else Err NotFitted.
Definition n_table (s : nst) : res fitted_rows := if o_solved s then Ok (o_table s) else Err NotFitted.
Definition n_information (s : nst) : res unit :=
  if o_solved s then if o_opt s then Ok tt else Err OtherError else Err NotFitted.

(** ** The object, dtype "categorical" *)
(** bsketch.py:326-336 *)
Fixpoint bump_cat (k : Z) (y : bool) (t : list crow) : list crow :=
  match t with
  | [] => [(k, upd y (0, 0))]
  | (k', c) :: r => if Z.eqb k k' then (k', upd y c) :: r else (k', c) :: bump_cat k y r
  end.
Definition add_cat (t : list crow) (r : rec_ Z) : list crow :=
  match rk r with Clean k => bump_cat k (ry r) t | _ => t end.
Definition cd_new : cdata := mkCD [] 0 0 0 0.
(** bsketch.py:307-347 *)
Definition cd_add (b : cdata) (l : list (rec_ Z)) : cdata :=
  mkCD (fold_left add_cat l (cd_t b))
       (cd_me b + countb (fun r => is_missing r && ry r) l) (cd_mne b + countb (fun r => is_missing r && negb (ry r)) l)
       (cd_se b + countb (fun r => is_special r && ry r) l) (cd_sne b + countb (fun r => is_special r && negb (ry r)) l).
(** bsketch.py:398-410 *)
Fixpoint join_cat (kv : crow) (t : list crow) : list crow :=
  match t with
  | [] => [kv]
  | (k, c) :: r => if Z.eqb (fst kv) k then (k, (fst c + fst (snd kv), snd c + snd (snd kv))) :: r else (k, c) :: join_cat kv r
  end.
Definition cd_merge (b o : cdata) : cdata :=
  mkCD (fold_left (fun t kv => join_cat kv t) (cd_t o) (cd_t b))
       (cd_me b + cd_me o) (cd_mne b + cd_mne o) (cd_se b + cd_se o) (cd_sne b + cd_sne o).

(** [k_cats], [k_others]: `_categories`, `_cat_others`; the table keeps its own [splits, categories, others, rows]. *)
Record cst := mkK { k_data : option cdata; k_adds : nat; k_solved : bool; k_cats : list Z; k_others : list Z;
                    k_splits : list Z; k_rows : list Z * list Z; k_table : list (list Z) * (list Z * list Z) }.
Definition c_new_obj : cst := mkK None 0 false [] [] [] ([], []) ([], ([], [])).
Definition c_add_obj (s : cst) (c : option (list (rec_ Z))) : cst * res unit :=
  let b := match k_data s with Some b => b | None => cd_new end in
  match c with
  | None => (mkK (Some b) (k_adds s) (k_solved s) (k_cats s) (k_others s) (k_splits s) (k_rows s) (k_table s), Err ValueError)
  | Some l => (mkK (Some (cd_add b l)) (S (k_adds s)) (k_solved s) (k_cats s) (k_others s) (k_splits s) (k_rows s) (k_table s), Ok tt)
  end.
Definition c_merge_obj (s o : cst) : cst * res unit :=
  match k_data s, k_data o with
  | Some b, Some c =>
      (mkK (Some (cd_merge b c)) (k_adds s) (k_solved s) (k_cats s) (k_others s) (k_splits s) (k_rows s) (k_table s), Ok tt)
  | _, _ => (s, Err OtherError)
  end.
(** binning_sketch.py:570-647, 728-741, 763-806: `_categories` and `_cat_others` are written before the prebins are
    refined and optimized, either of which may raise. *)
Definition c_solve_obj (solver : Z -> list Z -> list Z -> res (list bool)) (cutoff : option Q) (s : cst) : cst * res unit :=
  match k_adds s with
  | O => (s, Err NotFitted)
  | S _ =>
    match k_data s with
    | None => (s, Err OtherError)
    | Some b =>
      let n := cd_n_event b + cd_n_nonevent b in
      let cb := cat_bins cutoff n (cd_t b) in
      let cats := map fst (cb_rows cb) in
      let s1 := mkK (Some b) (k_adds s) (k_solved s) cats (cb_others cb) (k_splits s) (k_rows s) (k_table s) in   (* 732-735 *)
      let splits0 := map (fun i => Z.of_nat i + 1) (seq 0 (length cats - 1)) in
      match cat_prebins (S (length splits0)) 0 splits0 (map r_ne (cb_rows cb)) (map r_e (cb_rows cb)) with
      | None => (s1, Err OtherError)
      | Some (Err x) => (s1, Err x)
      | Some (Ok x) =>
        let '(splits, nev, ev, _) := x in
        match (if (length nev <=? 1)%nat then Ok (repeat false (length splits)) else solver n nev ev) with
        | Err y => (s1, Err y)
        | Ok sol =>
          let so := optimal_splits (length nev) splits sol in
          let nev := match splits with [] => [cd_n_nonevent b] | _ => nev end in
          let ev := match splits with [] => [cd_n_event b] | _ => ev end in
          let others v := match cb_others cb with [] => None | _ => Some v end in
          match bin_info_1 1 sol nev (others (cb_ne_others cb)) [cd_sne b] (cd_mne b),
                bin_info_1 1 sol ev (others (cb_e_others cb)) [cd_se b] (cd_me b) with
          | Some a, Some c =>
              (mkK (Some b) (k_adds s) true cats (cb_others cb) so (a, c) (cat_groups so cats (cb_others cb), (a, c)), Ok tt)
          | _, _ => (mkK (Some b) (k_adds s) (k_solved s) cats (cb_others cb) so (k_rows s) (k_table s), Err IndexError)
          end
        end
      end
    end
  end.
(** [splits] (984-990) and the counts [transform] uses with it; [binning_table] *)
Definition c_fitted_obj (s : cst) : res (list (list Z) * (list Z * list Z)) :=
  if k_solved s then Ok (cat_groups (k_splits s) (k_cats s) (k_others s), k_rows s) else Err NotFitted.
Definition c_table_obj (s : cst) : res (list (list Z) * (list Z * list Z)) :=
  if k_solved s then Ok (k_table s) else Err NotFitted.
