(** OptimalBinningSketch.solve for dtype "numerical", sketch "gk":
    optbinning/binning/distributed/binning_sketch.py:570-647, 702-761, 814-826, 936. *)
From Coq Require Import List ZArith Bool QArith.
From Verif Require Import Model.Arr Model.Core Model.GK Model.BSketch.
Import ListNotations.
Open Scope Z_scope.

(** The data held by one binning sketch (its GK objects dereferenced). *)
Record bdata := mkBD { bd_e : gk; bd_ne : gk; bd_me : Z; bd_mne : Z; bd_se : Z; bd_sne : Z }.

(** bsketch.py:208-218: the merged sketch, and the two internal sketches after the calls. *)
Definition merge_sketches (b : bdata) : res (gk * bdata) :=
  rbind (gk_merge (gk_new (eps (bd_e b))) (bd_e b)) (fun p =>
  rbind (gk_merge (fst p) (bd_ne b)) (fun q =>
  Ok (fst q, mkBD (snd p) (snd q) (bd_me b) (bd_mne b) (bd_se b) (bd_sne b)))).

(** binning_sketch.py:715-718: quantiles at i / max_n_prebins, 0 < i < max_n_prebins. *)
Fixpoint quantiles (s : gk) (qs : list Q) : res (list Z * gk) :=
  match qs with
  | [] => Ok ([], s)
  | q :: r => rbind (quantile s q) (fun p => rbind (quantiles (snd p) r) (fun t => Ok (fst p :: fst t, snd t)))
  end.
Definition percentiles (m : nat) : list Q := map (fun i => Z.of_nat i # Pos.of_nat m) (seq 1 (m - 1)).

(** binning_sketch.py:743-761. [None]: fuel exhausted. *)
Fixpoint sk_prebins (fuel : nat) (d : divergence) (b : bdata) (splits : list Z) : option (res (list Z * list Z * list Z)) :=
  match fuel with
  | O => None
  | S f =>
    let nev := gk_bins splits (bd_ne b) in
    let ev := gk_bins splits (bd_e b) in
    let m := map2 (fun a b => (a =? 0) || (b =? 0)) nev ev in
    if any m && refines d then
      match splits with
      | [] => Some (Err IndexError)                     (* mask_remove[-2] of a one-element array *)
      | _ => sk_prebins f d b (select (mnot (mask_splits m)) splits)
      end
    else Some (Ok (splits, nev, ev))
  end.

Record sfitted := mkSF { sf_splits : list Z; sf_prebins : list Z; sf_nev : list Z; sf_ev : list Z }.

(** bsketch.py:238-258 *)
Definition bd_n_event (b : bdata) : Z := gcount (bd_e b) + bd_me b + bd_se b.
Definition bd_n_nonevent (b : bdata) : Z := gcount (bd_ne b) + bd_mne b + bd_sne b.

(** binning_sketch.py:570-647 (data were added). [solver] is the optimisation oracle. *)
Definition sk_finish (solver : list Z -> list Z -> list bool) (b : bdata) (splits nev ev : list Z) : res sfitted :=
  let n := length nev in
  let sol := if (n <=? 1)%nat then repeat false (length splits) else solver nev ev in
  let so := optimal_splits n splits sol in
  let nev := match splits with [] => [bd_n_nonevent b] | _ => nev end in        (* 614-616 *)
  let ev := match splits with [] => [bd_n_event b] | _ => ev end in
  match bin_info_1 1 sol nev None [bd_sne b] (bd_mne b), bin_info_1 1 sol ev None [bd_se b] (bd_me b) with
  | Some a, Some c => Ok (mkSF so splits a c)
  | _, _ => Err IndexError
  end.
Definition sk_solve (d : divergence) (solver : list Z -> list Z -> list bool) (m : nat) (b : bdata) : res sfitted :=
  rbind (merge_sketches b) (fun p =>
  let b := snd p in
  rbind (quantiles (fst p) (percentiles m)) (fun t =>
  match sk_prebins (S (length (fst t))) d b (fst t) with
  | None => Err OtherError
  | Some r => rbind r (fun x => sk_finish solver b (fst (fst x)) (snd (fst x)) (snd x))
  end)).

(** ** BCatSketch.bins: bsketch.py:349-387. [t]: the dict category -> (nonevent, event). *)
Definition crow := (Z * (Z * Z))%type.
Definition r_ne (r : crow) : Z := fst (snd r).
Definition r_e (r : crow) : Z := snd (snd r).
(** event rate v[1] / (v[0] + v[1]) *)
Definition rate_le (a b : crow) : bool := Z.leb (r_e a * (r_ne b + r_e b)) (r_e b * (r_ne a + r_e a)).
Fixpoint insert_r (x : crow) (l : list crow) : list crow :=
  match l with [] => [x] | y :: r => if rate_le x y then x :: l else y :: insert_r x r end.
Definition sort_r (l : list crow) : list crow := fold_right insert_r [] l.
(** [v[2] / self.n < self.cat_cutoff] *)
Definition rare (cutoff : Q) (n : Z) (r : crow) : bool :=
  negb (Qle_bool (cutoff * inject_Z n) (inject_Z (r_ne r + r_e r))).
Record cbins := mkCB { cb_rows : list crow; cb_others : list Z; cb_ne_others : Z; cb_e_others : Z }.
Definition cat_bins (cutoff : option Q) (n : Z) (t : list crow) : cbins :=
  match cutoff with
  | None => mkCB (sort_r t) [] 0 0
  | Some c =>
      let o := filter (rare c n) t in
      mkCB (sort_r (filter (fun r => negb (zmem (fst r) (map fst o))) t)) (map fst o)
           (zsum (map r_ne o)) (zsum (map r_e o))
  end.

(** binning_sketch.py:785-802: counts of the bins obtained by digitizing the positions of the current groups.
    [splits]: the values np.ceil(splits) (bsketch.py:385: 0.5 + i, so i + 1). *)
Definition regroup (splits n : list Z) : list Z :=
  map (fun i => zsum (map snd (filter (fun jv => Nat.eqb (digitize splits (Z.of_nat (fst jv))) i)
                                      (combine (seq 0 (length n)) n))))
      (seq 0 (S (length splits))).
(** binning_sketch.py:763-806 with cat_heuristic=False (then all divergences refine the same way). [rounds] counts the
    recursive calls. [None]: fuel exhausted. *)
Fixpoint cat_prebins (fuel : nat) (rounds : nat) (splits nev ev : list Z) : option (res (list Z * list Z * list Z * nat)) :=
  match fuel with
  | O => None
  | S f =>
    let m := map2 (fun a b => (a =? 0) || (b =? 0)) nev ev in
    if any m then
      match splits with
      | [] => Some (Err IndexError)                     (* mask_remove[-2] of a one-element array *)
      | _ => let s' := select (mnot (mask_splits m)) splits in
             cat_prebins f (S rounds) s' (regroup s' nev) (regroup s' ev)
      end
    else Some (Ok (splits, nev, ev, rounds))
  end.

Record cfitted := mkCF { cs_splits : list Z; cs_prebins : list Z; cs_bins : list (list Z);
                         cs_nev : list Z; cs_ev : list Z; cs_rounds : nat }.
(** binning_statistics.py:80-108 (user_splits None) *)
Definition cat_groups (splits cats others : list Z) : list (list Z) :=
  map (fun i => select (map (fun j => Nat.eqb (digitize splits (Z.of_nat j)) i) (seq 0 (length cats))) cats)
      (seq 0 (S (length splits)))
  ++ match others with [] => [] | _ => [others] end.

(** The data of a categorical binning sketch: category -> (nonevent, event), missing, special. *)
Record cdata := mkCD { cd_t : list crow; cd_me : Z; cd_mne : Z; cd_se : Z; cd_sne : Z }.
Definition cd_n_event (b : cdata) : Z := zsum (map r_e (cd_t b)) + cd_me b + cd_se b.
Definition cd_n_nonevent (b : cdata) : Z := zsum (map r_ne (cd_t b)) + cd_mne b + cd_sne b.

(** binning_sketch.py:570-647, 728-741 and the [splits] property (984-990), dtype "categorical" *)
Definition cat_solve (solver : list Z -> list Z -> list bool) (cutoff : option Q) (b : cdata) : res cfitted :=
  let cb := cat_bins cutoff (cd_n_event b + cd_n_nonevent b) (cd_t b) in
  let cats := map fst (cb_rows cb) in
  let splits0 := map (fun i => Z.of_nat i + 1) (seq 0 (length cats - 1)) in
  match cat_prebins (S (length splits0)) 0 splits0 (map r_ne (cb_rows cb)) (map r_e (cb_rows cb)) with
  | None => Err OtherError
  | Some r => rbind r (fun x =>
      let '(splits, nev, ev, rounds) := x in
      let n := length nev in
      let sol := if (n <=? 1)%nat then repeat false (length splits) else solver nev ev in
      let so := optimal_splits n splits sol in
      let nev := match splits with [] => [cd_n_nonevent b] | _ => nev end in
      let ev := match splits with [] => [cd_n_event b] | _ => ev end in
      let others v := match cb_others cb with [] => None | _ => Some v end in
      match bin_info_1 1 sol nev (others (cb_ne_others cb)) [cd_sne b] (cd_mne b),
            bin_info_1 1 sol ev (others (cb_e_others cb)) [cd_se b] (cd_me b) with
      | Some a, Some c => Ok (mkCF so splits (cat_groups so cats (cb_others cb)) a c rounds)
      | _, _ => Err IndexError
      end)
  end.
