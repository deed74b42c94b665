(** Categorical variables (binary target) without and with user splits. Categories are integers
    (any injective naming); missing is [XNaN]. *)
From Coq Require Import List ZArith Bool Arith.
From Verif Require Import Model.Arr Model.Core.
Import ListNotations.
Open Scope Z_scope.

(** ** Pre-processing *)

(** [np.ceil(p / q)] for an integer denominator q > 0 *)
Definition zceil (p q : Z) : Z := - ((- p) / q).

(** [value_counts] of one category *)
Definition count_of (x : xval) (l : list xval) : Z := Z.of_nat (length (filter (xval_eqb x) l)).

(** distinct values of a list (order of [value_counts] is irrelevant for the rest) *)
Fixpoint distinct (l : list Z) : list Z :=
  match l with [] => [] | x :: r => if zmem x r then distinct r else x :: distinct r end.

(** preprocessing.py:32-42. [cutoff] = cp/cq; float rounding of [cutoff * len(x)] is not modelled. *)
Definition mask_others (cp cq : Z) (x : list xval) : list bool :=
  map (fun c => count_of c x <? zceil (cp * Z.of_nat (length x)) cq) x.

Record cat_split := {
  cs_out : split_out;              (* clean (without others) / missing / special *)
  cs_others : list Z;              (* others *)
  cs_y_others : list yval; cs_sw_others : list Z }.

(** preprocessing.py:263-282, up to the call of categorical_transform (cat_cutoff=None: 273-276). *)
Definition split_categorical (cutoff : option (Z * Z)) (sp : special)
    (xs : list xval) (ys : list yval) (sw : list Z) : res cat_split :=
  let o := split_masks sp xs ys sw in
  match cutoff with
  | None => Ok {| cs_out := o; cs_others := []; cs_y_others := []; cs_sw_others := [] |}
  | Some (cp, cq) =>
      let mo := mask_others cp cq (x_clean o) in
      if any (mnot mo) then
        Ok {| cs_out := keep_clean (mnot mo) o;
              cs_others := distinct (map num (select mo (x_clean o)));
              cs_y_others := select mo (y_clean o); cs_sw_others := select mo (sw_clean o) |}
      else Err ValueError
  end.

(** preprocessing.py:27-29: position of a category in the sorted categories ([pd.Series(x).map(d)]). *)
Fixpoint index_of (c : Z) (cats : list Z) : nat :=
  match cats with [] => O | k :: r => if c =? k then O else S (index_of c r) end.

(** preprocessing.py:25-26: number of events / records of a category (the mean of y over the group;
    unweighted). *)
Definition cat_events (c : Z) (xs : list xval) (ys : list yval) : Z :=
  Z.of_nat (length (filter (fun p => xval_eqb (fst p) (XNum c) && negb (y_is0 (snd p))) (combine xs ys))).
Definition cat_records (c : Z) (xs : list xval) : Z := count_of (XNum c) xs.

(** clean samples in the nominal coordinate; positions are scaled by [u], the common denominator of the
    prebinning splits (a tree threshold such as 0.5 is 1/2). *)
Definition cat_csamples (u : Z) (cats : list Z) (o : split_out) : list csample :=
  map2 (fun xy w => {| cx := u * Z.of_nat (index_of (num (fst xy)) cats); c0 := y_is0 (snd xy); cw := w |})
       (combine (x_clean o) (y_clean o)) (sw_clean o).

(** ** Fit: binning.py:808-848 with dtype categorical, user_splits None *)
Record cfitted := { cf_splits : list Z; cf_solution : list bool; cf_nev : list Z; cf_ev : list Z;
                    cf_cats : list Z; cf_others : list Z }.

(** [others] row: bin_info lines 247-249, counts from binning.py:1058-1061. *)
Definition finish_fit_cat (wu : Z) (solver : list Z -> list Z -> list bool) (sp : special)
    (cs : cat_split) (cats : list Z) (pb : prebins) : res cfitted :=
  let o := cs_out cs in
  let n := length (pb_nev pb) in
  let sol := if (n <=? 1)%nat then repeat false (length (pb_splits pb))
             else solver (pb_nev pb) (pb_ev pb) in
  let so := optimal_splits n (pb_splits pb) sol in
  let t := target_info_samples (y_clean o) (sw_clean o) in
  let nev := match pb_splits pb with [] => [trunc wu (fst t)] | _ => pb_nev pb end in
  let ev := match pb_splits pb with [] => [trunc wu (snd t)] | _ => pb_ev pb end in
  let ispec := target_info_special sp (x_special o) (y_special o) (sw_special o) in
  let imiss := target_info_samples (y_missing o) (sw_missing o) in
  let io := target_info_samples (cs_y_others cs) (cs_sw_others cs) in
  let oth (f : Z * Z -> Z) := match cs_others cs with [] => None | _ => Some (f io) end in
  match bin_info_1 wu sol nev (oth fst) (map fst ispec) (fst imiss),
        bin_info_1 wu sol ev (oth snd) (map snd ispec) (snd imiss) with
  | Some a, Some b => Ok {| cf_splits := so; cf_solution := sol; cf_nev := a; cf_ev := b;
                            cf_cats := cats; cf_others := cs_others cs |}
  | _, _ => Err IndexError
  end.

(** [order] returns the sorted categories (an oracle: pandas' sort breaks ties in an unspecified order);
    [splits0] is what prebinning proposes on the nominal data. *)
Definition fit_categorical (wu u : Z) (d : divergence) (solver : list Z -> list Z -> list bool)
    (sp : special) (cutoff : option (Z * Z)) (order : list xval -> list yval -> list Z)
    (prebinning : list csample -> list Z)
    (xs : list xval) (ys : list yval) (sw : list Z) : option (res cfitted) :=
  match split_categorical cutoff sp xs ys sw with
  | Err e => Some (Err e)
  | Ok cs =>
      let o := cs_out cs in
      let cats := order (x_clean o) (y_clean o) in
      let data := cat_csamples u cats o in
      let splits0 := prebinning data in
      match compute_prebins (S (length splits0)) wu d data None None 0 false splits0 with
      | None => None
      | Some (Err e) => Some (Err e)
      | Some (Ok pb) => Some (finish_fit_cat wu solver sp cs cats pb)
      end
  end.

(** ** bins: binning_statistics.py:80-109 (user_splits None) *)
Definition bin_categorical (u : Z) (splits cats others : list Z) : list (list Z) :=
  let csplits := map (fun s => zceil s u) splits in
  map (fun i => select (map (fun j => Nat.eqb (digitize csplits (Z.of_nat j)) i) (seq 0 (length cats))) cats)
      (seq 0 (S (length splits)))
  ++ match others with [] => [] | _ => [others] end.

(** ** transform: transformations.py:193-225, categorical branch *)
Fixpoint apply_bins {V} (bins : list (list Z)) (i : nat) (mv : list V) (x : xval) (cur : res V) : res V :=
  match bins with
  | [] => cur
  | b :: r => apply_bins r (S i) mv x (if isin (map XNum b) x then idx mv i else cur)
  end.

Definition transform1_cat {V} (bins : list (list Z)) (sp : special) (k : mkind) (ms mm : marg V)
    (mv : list V) (unknown : V) (x : xval) : res V :=
  let n_bins := length bins in
  let s := apply_special k ms mv n_bins sp x (apply_bins bins 0 mv x (Ok unknown)) in
  if x_isnull x then table_or_const k mm mv (n_bins + n_special sp)%nat else s.

Definition transform_indices_cat (bins : list (list Z)) (sp : special) (ms mm : marg Z) (unknown : Z)
    (x : xval) : res Z :=
  transform1_cat bins sp MIndices ms mm (map Z.of_nat (seq 0 (length bins + n_special sp + 1))) unknown x.

(** ** Categorical variables with user splits *)

(** preprocessing.py:328-335: repeated categories raise. *)
Fixpoint has_dup (l : list Z) : bool :=
  match l with [] => false | x :: r => zmem x r || has_dup r end.

(** binning.py:1076-1136 for dtype "categorical" with user_splits: right=True, n_bins = n_splits,
    mask_splits = mask_remove. [fixed] is None here. *)
Fixpoint compute_prebins_user (fuel : nat) (wu : Z) (d : divergence) (data : list csample)
    (splits : list Z) : option (list Z * list Z * list Z) :=
  match fuel with
  | O => None
  | S fuel' =>
    match splits with
    | [] => Some ([], [], [])
    | _ =>
      let n_bins := length splits in
      let nev := counts wu (digitize_r splits) true data n_bins in
      let ev := counts wu (digitize_r splits) false data n_bins in
      let mask_remove := map2 (fun a b => (a =? 0) || (b =? 0)) nev ev in
      if any mask_remove && refines d
      then compute_prebins_user fuel' wu d data (select (mnot mask_remove) splits)
      else Some (splits, nev, ev)
    end
  end.

(** preprocessing.py:321-374: categories outside every group become "others"; a sample's nominal value is
    the position of its group in [groups] (the user groups sorted by event rate: [groups] is that list). *)
Fixpoint group_of (c : Z) (groups : list (list Z)) (i : nat) : option nat :=
  match groups with [] => None | g :: r => if zmem c g then Some i else group_of c r (S i) end.
Definition user_mask_others (groups : list (list Z)) (x : list xval) : list bool :=
  map (fun c => negb (zmem (num c) (concat groups))) x.
Definition user_csamples (groups : list (list Z)) (o : split_out) : list csample :=
  map2 (fun xy w => {| cx := match group_of (num (fst xy)) groups 0 with Some i => Z.of_nat i | None => 0 end;
                       c0 := y_is0 (snd xy); cw := w |})
       (combine (x_clean o) (y_clean o)) (sw_clean o).

(** binning.py:794-848 with user_splits and dtype categorical. Line 1034-1035: [splits[solution]]. *)
Definition fit_user_categorical (wu : Z) (d : divergence) (solver : list Z -> list Z -> list bool)
    (sp : special) (groups : list (list Z)) (xs : list xval) (ys : list yval) (sw : list Z)
  : option (res (list Z * list Z * list Z)) :=
  if has_dup (concat groups) then Some (Err ValueError) else
  let o0 := split_masks sp xs ys sw in
  let mo := user_mask_others groups (x_clean o0) in
  let o := keep_clean (mnot mo) o0 in
  let io := target_info_samples (select mo (y_clean o0)) (select mo (sw_clean o0)) in
  let others := distinct (map num (select mo (x_clean o0))) in
  let data := user_csamples groups o in
  let splits0 := map Z.of_nat (seq 0 (length groups)) in
  match compute_prebins_user (S (length splits0)) wu d data splits0 with
  | None => None
  | Some (splits, nev0, ev0) =>
      let n := length nev0 in
      let sol := if (n <=? 1)%nat then repeat false (length splits) else solver nev0 ev0 in
      let so := if (n <=? 1)%nat then splits else select sol splits in
      let t := target_info_samples (y_clean o) (sw_clean o) in
      let nev := match splits with [] => [trunc wu (fst t)] | _ => nev0 end in
      let ev := match splits with [] => [trunc wu (snd t)] | _ => ev0 end in
      let ispec := target_info_special sp (x_special o) (y_special o) (sw_special o) in
      let imiss := target_info_samples (y_missing o) (sw_missing o) in
      let oth (f : Z * Z -> Z) := match others with [] => None | _ => Some (f io) end in
      match bin_info_1 wu sol nev (oth fst) (map fst ispec) (fst imiss),
            bin_info_1 wu sol ev (oth snd) (map snd ispec) (snd imiss) with
      | Some a, Some b => Some (Ok (so, a, b))
      | _, _ => Some (Err IndexError)
      end
  end.

(** binning_statistics.py:84-104 with user_splits *)
Definition bin_categorical_user (splits : list Z) (groups : list (list Z)) (others : list Z) : list (list Z) :=
  map (fun i => concat (select (map (fun j => Nat.eqb (digitize_r splits (Z.of_nat j)) i)
                                 (seq 0 (length groups))) groups))
      (seq 0 (length splits))
  ++ match others with [] => [] | _ => [others] end.
