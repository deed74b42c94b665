(** Numerical binning pipeline for a binary target:
    preprocessing -> prebin refinement -> (solver oracle) -> post-processing -> transform. *)
From Coq Require Import List ZArith Bool Arith.
From Verif Require Import Model.Arr.
Import ListNotations.
Open Scope Z_scope.

(** ** Values *)

(** An entry of the [x] array. [XNum] holds a finite value (a finite double is an integer multiple
    of 2^-1074, so comparisons are exact on integers; a category is identified with an integer).
    [XNaN] is any value [np.isnan]/[pd.isnull] flags. *)
Inductive xval := XNaN | XNum (z : Z).

(** An entry of a binary target array: NaN, 0, or a non-zero label. *)
Inductive yval := YNaN | Y0 | Y1.

Definition x_isnull (x : xval) : bool := match x with XNaN => true | XNum _ => false end.
Definition y_isnull (y : yval) : bool := match y with YNaN => true | _ => false end.
(** [y == 0] (NaN compares unequal to 0). binning.py:1048, binning_statistics.py:116,129 *)
Definition y_is0 (y : yval) : bool := match y with Y0 => true | _ => false end.

Definition xval_eqb (a b : xval) : bool :=
  match a, b with XNaN, XNaN => true | XNum x, XNum y => Z.eqb x y | _, _ => false end.

(** [pd.Series(x).isin(codes)] for one element (pandas matches NaN with NaN). *)
Definition isin (codes : list xval) (x : xval) : bool := existsb (xval_eqb x) codes.

(** [special_codes] argument: None, a list, or a dict from keys to lists
    (a scalar dict value [s] is used as [[s]]: preprocessing.py:195-199, binning_statistics.py:142). *)
Inductive special := SpNone | SpList (l : list xval) | SpDict (d : list (Z * list xval)).

(** preprocessing.py:193-201 / transformations.py:117-125,139-144: flattened list of codes. *)
Definition flat_codes (s : special) : list xval :=
  match s with SpNone => [] | SpList l => l | SpDict d => concat (map snd d) end.

(** transformations.py:134-144: number of special rows. *)
Definition n_special (s : special) : nat :=
  match s with SpNone => 1 | SpList _ => 1 | SpDict d => length d end.

(** ** Pre-processing: preprocessing.py:45-285 *)

Inductive dtype := Numerical | Categorical.

Record split_out := {
  x_clean : list xval; y_clean : list yval; sw_clean : list Z;
  x_missing : list xval; y_missing : list yval; sw_missing : list Z;
  x_special : list xval; y_special : list yval; sw_special : list Z }.

(** preprocessing.py:188-191 *)
Definition missing_mask (xs : list xval) (ys : list yval) : list bool :=
  map2 (fun x y => x_isnull x || y_isnull y) xs ys.

(** preprocessing.py:203-228. Simplification: [class_weight] (lines 181-186) is assumed to be
    already multiplied into the weights [sw] ([sw] is all ones if [sample_weight] is None, 179). *)
Definition split_masks (sp : special) (xs : list xval) (ys : list yval) (sw : list Z) : split_out :=
  let mm := missing_mask xs ys in
  match sp with
  | SpNone =>
      let cm := mnot mm in
      {| x_clean := select cm xs; y_clean := select cm ys; sw_clean := select cm sw;
         x_missing := select mm xs; y_missing := select mm ys; sw_missing := select mm sw;
         x_special := []; y_special := []; sw_special := [] |}
  | _ =>
      let sm := map (isin (flat_codes sp)) xs in
      let cm := mand (mnot mm) (mnot sm) in
      {| x_clean := select cm xs; y_clean := select cm ys; sw_clean := select cm sw;
         x_missing := select mm xs; y_missing := select mm ys; sw_missing := select mm sw;
         x_special := select sm xs; y_special := select sm ys; sw_special := select sm sw |}
  end.

(** Keep the clean entries with mask True (preprocessing.py:247-249, 259-261). *)
Definition keep_clean (m : list bool) (o : split_out) : split_out :=
  {| x_clean := select m (x_clean o); y_clean := select m (y_clean o);
     sw_clean := select m (sw_clean o);
     x_missing := x_missing o; y_missing := y_missing o; sw_missing := sw_missing o;
     x_special := x_special o; y_special := y_special o; sw_special := sw_special o |}.

Definition num (x : xval) : Z := match x with XNum z => z | XNaN => 0 end.

(** preprocessing.py:230-261, numerical branch: outlier detector (an oracle computing a mask from
    the clean x and y) and fixed bounds, with the if/elif/else exactly as written. *)
Definition split_numerical (detector : option (list Z -> list yval -> list bool))
    (fix_lb fix_ub : option Z) (sp : special)
    (xs : list xval) (ys : list yval) (sw : list Z) : res split_out :=
  let bad_bounds := match fix_lb, fix_ub with
                    | Some l, Some u => u <? l
                    | _, _ => false end in
  if bad_bounds then Err ValueError  (* 162-165 *) else
  let o := split_masks sp xs ys sw in
  let o1 := match detector with
            | None => o
            | Some d => keep_clean (mnot (d (map num (x_clean o)) (y_clean o))) o
            end in
  let o2 :=
    match fix_lb, fix_ub with
    | None, None => o1
    | Some lb, _ => keep_clean (map (fun x => lb <=? num x) (x_clean o1)) o1
    | None, Some ub => keep_clean (map (fun x => num x <=? ub) (x_clean o1)) o1
    end in
  Ok o2.

(** ** Digitize *)

(** [np.digitize(x, splits, right=False)] for increasing splits: the index of the first split
    strictly greater than [x]. transformations.py:257,343,414; binning.py:1085 *)
Fixpoint digitize (splits : list Z) (x : Z) : nat :=
  match splits with [] => O | s :: r => if s <=? x then S (digitize r x) else O end.

(** [np.digitize(x, splits, right=True)]: index of the first split >= x. binning.py:1082 *)
Fixpoint digitize_r (splits : list Z) (x : Z) : nat :=
  match splits with [] => O | s :: r => if s <? x then S (digitize_r r x) else O end.

(** ** Prebins: binning.py:1076-1136 *)

(** One clean sample: value, [y == 0], weight. Weights are integers in units of 1/[wu]
    (finite doubles have a common denominator). *)
Record csample := { cx : Z; c0 : bool; cw : Z }.

(** Assignment of a float sum to an int64 array cell truncates towards zero (binning.py:1088-1094). *)
Definition trunc (wu : Z) (s : Z) : Z := Z.quot s wu.

(** binning.py:1091-1094, count of class [cls] (true: y == 0) in bin [i]. *)
Definition bin_count (wu : Z) (dig : Z -> nat) (cls : bool) (data : list csample) (i : nat) : Z :=
  trunc wu (zsum (map cw (filter (fun s => Bool.eqb (c0 s) cls && Nat.eqb (dig (cx s)) i) data))).

Definition counts (wu : Z) (dig : Z -> nat) (cls : bool) (data : list csample) (n : nat) : list Z :=
  map (bin_count wu dig cls data) (seq 0 n).

Inductive divergence := IV | JS | HELLINGER | TRIANGULAR.
Definition refines (d : divergence) : bool :=
  match d with HELLINGER | TRIANGULAR => false | _ => true end.

(** binning.py:1108-1109: [concatenate([m[:-2], [m[-2] | m[-1]]])]. *)
Fixpoint mask_splits (m : list bool) : list bool :=
  match m with
  | [a; b] => [a || b]
  | a :: r => a :: mask_splits r
  | [] => []
  end.

Record prebins := { pb_splits : list Z; pb_nev : list Z; pb_ev : list Z;
                    pb_fixed : option (list bool); pb_user : option (list Z);
                    pb_nref : nat; pb_flag : bool }.

(** binning.py:1076-1136 for dtype "numerical" (or categorical without user_splits).
    [fixed]/[user]: self.user_splits_fixed / self.user_splits (both mutated by the code).
    [None] is returned only when the fuel is exhausted. *)
Fixpoint compute_prebins (fuel : nat) (wu : Z) (d : divergence) (data : list csample)
    (fixed : option (list bool)) (user : option (list Z)) (nref : nat) (flag : bool)
    (splits : list Z) : option (res prebins) :=
  match fuel with
  | O => None
  | S fuel' =>
    match splits with
    | [] => Some (Ok {| pb_splits := []; pb_nev := []; pb_ev := [];
                        pb_fixed := fixed; pb_user := user; pb_nref := nref; pb_flag := flag |})
    | _ =>
      let n_bins := S (length splits) in
      let nev := counts wu (digitize splits) true data n_bins in
      let ev := counts wu (digitize splits) false data n_bins in
      let mask_remove := map2 (fun a b => (a =? 0) || (b =? 0)) nev ev in
      if any mask_remove then
        if refines d then
          let ms := mask_splits mask_remove in
          match fixed with
          | Some f =>
              if any (mand f ms) then Some (Err ValueError)
              else compute_prebins fuel' wu d data (Some (select (mnot ms) f))
                     (option_map (select (mnot ms)) user) (S nref) flag (select (mnot ms) splits)
          | None =>
              compute_prebins fuel' wu d data None user (S nref) flag (select (mnot ms) splits)
          end
        else Some (Ok {| pb_splits := splits; pb_nev := nev; pb_ev := ev;
                         pb_fixed := fixed; pb_user := user; pb_nref := nref; pb_flag := true |})
      else Some (Ok {| pb_splits := splits; pb_nev := nev; pb_ev := ev;
                       pb_fixed := fixed; pb_user := user; pb_nref := nref; pb_flag := flag |})
    end
  end.

(** ** Target information for special / missing samples *)

(** binning_statistics.py:123-133 (weights of class 0 / other classes). *)
Definition target_info_samples (ys : list yval) (sw : list Z) : Z * Z :=
  match ys, sw with
  | [], _ => (0, 0)
  | _, [] => (Z.of_nat (count_true (map y_is0 ys)), Z.of_nat (count_true (mnot (map y_is0 ys))))
  | _, _ => (zsum (select (map y_is0 ys) sw), zsum (select (mnot (map y_is0 ys)) sw))
  end.

(** Counts for the special rows: a scalar or one per dict key. binning_statistics.py:136-150 *)
Definition target_info_special (sp : special) (xs : list xval) (ys : list yval) (sw : list Z)
  : list (Z * Z) :=
  match sp with
  | SpDict d => map (fun kv => let m := map (isin (snd kv)) xs in
                               target_info_samples (select m ys) (select m sw)) d
  | _ => [target_info_samples ys sw]
  end.

(** ** Post-processing: binning_statistics.py:225-261 *)

(** The accumulation loop, lines 229-241, for one count vector. [None] is an IndexError
    ([n_event[i]] out of range). *)
Fixpoint merge_loop (acc : Z) (sol : list bool) (n : list Z) : option (list Z) :=
  match sol, n with
  | [], _ => Some []
  | b :: s, v :: r =>
      if b then option_map (cons (v + acc)) (merge_loop 0 s r) else merge_loop (acc + v) s r
  | _ :: _, [] => None
  end.

(** Lines 243-259: rows = merged bins (or the single bin), others (if any), specials, missing.
    [astype(np.int64)] truncates the (possibly fractional) special/missing/others weights. *)
Definition bin_info_1 (wu : Z) (sol : list bool) (n : list Z) (others : option Z)
    (specials : list Z) (missing : Z) : option (list Z) :=
  let core := match sol with
              | [] => match n with [] => None | v :: _ => Some [v] end
              | _ => merge_loop 0 sol n
              end in
  option_map (fun rows => rows ++ map (trunc wu) (match others with Some o => [o] | None => [] end)
                               ++ map (trunc wu) specials ++ [trunc wu missing]) core.

(** ** Fit: binning.py:700-877 (numerical dtype) *)

Record fitted := {
  f_splits : list Z;         (* self._splits_optimal *)
  f_solution : list bool;    (* self._solution *)
  f_nev : list Z;            (* self._n_nonevent *)
  f_ev : list Z;             (* self._n_event *)
  f_nprebins : nat;          (* self._n_prebins *)
  f_prebins : prebins }.

Definition to_csamples (o : split_out) : list csample :=
  map2 (fun xy w => {| cx := num (fst xy); c0 := y_is0 (snd xy); cw := w |})
       (combine (x_clean o) (y_clean o)) (sw_clean o).

(** [splits[solution[:-1]]] (1037) or, with at most one prebin, [splits] itself (904-907). *)
Definition optimal_splits (n_prebins : nat) (splits : list Z) (sol : list bool) : list Z :=
  if (n_prebins <=? 1)%nat then splits else select (init sol) splits.

(** binning.py:829-848. [solver] is the optimisation oracle: prebin counts -> solution vector.
    [wu] is the weight unit. *)
Definition finish_fit (wu : Z) (solver : list Z -> list Z -> list bool) (sp : special)
    (o : split_out) (pb : prebins) : res fitted :=
  let n := length (pb_nev pb) in
  let sol := if (n <=? 1)%nat then repeat false (length (pb_splits pb))
             else solver (pb_nev pb) (pb_ev pb) in
  let so := optimal_splits n (pb_splits pb) sol in
  let t := target_info_samples (y_clean o) (sw_clean o) in
  (* 839-842: integer arrays of the clean totals; int64 conversion happens in bin_info *)
  let nev := match pb_splits pb with [] => [trunc wu (fst t)] | _ => pb_nev pb end in
  let ev := match pb_splits pb with [] => [trunc wu (snd t)] | _ => pb_ev pb end in
  let ispec := target_info_special sp (x_special o) (y_special o) (sw_special o) in
  let imiss := target_info_samples (y_missing o) (sw_missing o) in
  match bin_info_1 wu sol nev None (map fst ispec) (fst imiss),
        bin_info_1 wu sol ev None (map snd ispec) (snd imiss) with
  | Some a, Some b => Ok {| f_splits := so; f_solution := sol; f_nev := a; f_ev := b;
                            f_nprebins := n; f_prebins := pb |}
  | _, _ => Err IndexError
  end.

(** Whole numerical fit without outlier detector; [splits0] are the split points proposed by
    prebinning (sklearn / user), an arbitrary increasing list. *)
Definition fit_numerical (wu : Z) (d : divergence) (solver : list Z -> list Z -> list bool)
    (sp : special) (fixed : option (list bool)) (user : option (list Z)) (splits0 : list Z)
    (xs : list xval) (ys : list yval) (sw : list Z) : option (res fitted) :=
  let o := split_masks sp xs ys sw in
  match compute_prebins (S (length splits0)) wu d (to_csamples o) fixed user 0 false splits0 with
  | None => None
  | Some (Err e) => Some (Err e)
  | Some (Ok pb) => Some (finish_fit wu solver sp o pb)
  end.

(** ** Transform: transformations.py:128-227, pointwise
    (all masks are elementwise functions of x, and later mask assignments override earlier ones,
    so the vectorised code maps [transform1] over x). *)

Inductive mkind := MIndices | MBins | MValue.
(** metric_special / metric_missing: "empirical" or a number ([is_int]: isinstance(_, int)). *)
Inductive marg (V : Type) := Empirical | Const (is_int : bool) (v : V).
Arguments Empirical {V}.
Arguments Const {V} _ _.

(** transformations.py:205-207, 212-215, 220-222 *)
Definition use_table {V} (k : mkind) (a : marg V) : bool :=
  match a with
  | Empirical => true
  | Const is_int _ => match k with MIndices => negb is_int | MBins => true | MValue => false end
  end.

Definition idx {V} (l : list V) (i : nat) : res V :=
  match nth_error l i with Some v => Ok v | None => Err IndexError end.

Definition table_or_const {V} (k : mkind) (a : marg V) (mv : list V) (i : nat) : res V :=
  if use_table k a then idx mv i
  else match a with Const _ v => Ok v | Empirical => idx mv i end.

(** 199-218: special codes, dict entries in order with later ones overriding. *)
Fixpoint special_dict {V} (k : mkind) (a : marg V) (mv : list V) (base : nat)
    (d : list (Z * list xval)) (x : xval) (cur : res V) : res V :=
  match d with
  | [] => cur
  | (_, codes) :: r =>
      let cur' := if isin codes x then table_or_const k a mv base else cur in
      special_dict k a mv (S base) r x cur'
  end.

Definition apply_special {V} (k : mkind) (a : marg V) (mv : list V) (n_bins : nat)
    (sp : special) (x : xval) (cur : res V) : res V :=
  match sp with
  | SpNone => cur
  | SpList l => if isin l x then table_or_const k a mv n_bins else cur
  | SpDict d => special_dict k a mv n_bins d x cur
  end.

Definition is_clean (sp : special) (x : xval) : bool :=
  negb (x_isnull x) && negb (match sp with SpNone => false | _ => isin (flat_codes sp) x end).

(** numerical branch of [_apply_transform], 181-192 then 199-225 *)
Definition transform1_num {V} (splits : list Z) (sp : special) (k : mkind) (ms mm : marg V)
    (mv : list V) (unknown : V) (x : xval) : res V :=
  let n_bins := S (length splits) in
  let start := if is_clean sp x then
                 (let i := digitize splits (num x) in
                  if (i <? n_bins)%nat then idx mv i else Ok unknown)
               else Ok unknown in
  let s := apply_special k ms mv n_bins sp x start in
  if x_isnull x then table_or_const k mm mv (n_bins + n_special sp)%nat else s.

(** transformations.py:161-163: metric "indices" on a fitted numerical variable. *)
Definition transform_indices (splits : list Z) (sp : special) (ms mm : marg Z) (x : xval) : res Z :=
  transform1_num splits sp MIndices ms mm
    (map Z.of_nat (seq 0 (S (length splits) + n_special sp + 1))) (-1) x.
