(** The analysis of the 2D binning tables: which bins are compared. optbinning/binning/multidimensional/binning_statistics_2d.py:92-124
    (get_paths, get_pairs), 288-289 and 690 (their use in build), 452-530 and 831-885 (analysis). *)
From Coq Require Import List ZArith Bool Arith Reals.
From Verif Require Import Model.Arr Model.Core Model.Metrics Model.TwoD Model.MultiTable.
Import ListNotations.
Open Scope nat_scope.

Definition mem (x : nat) (l : list nat) : bool := existsb (Nat.eqb x) l.
(** tuple(dict.fromkeys(l)) *)
Definition fromkeys (l : list nat) : list nat := fold_left (fun d x => if mem x d then d else d ++ [x]) l [].
(** P[i, :] and P[:, j] of the m x n matrix stored by rows *)
Definition p_row (n : nat) (P : list nat) (i : nat) : list nat := map (fun j => nth (i * n + j) P 0) (seq 0 n).
Definition p_col (m n : nat) (P : list nat) (j : nat) : list nat := map (fun i => nth (i * n + j) P 0) (seq 0 m).
Fixpoint list_eqb (a b : list nat) : bool :=
  match a, b with [], [] => true | x :: r, y :: s => Nat.eqb x y && list_eqb r s | _, _ => false end.
(** 92-107: a path is kept if it is not in the list yet *)
Definition add_path (ps : list (list nat)) (l : list nat) : list (list nat) :=
  let p := fromkeys l in if existsb (list_eqb p) ps then ps else ps ++ [p].
Definition get_paths (m n : nat) (P : list nat) : list (list nat) * list (list nat) :=
  (fold_left add_path (map (p_row n P) (seq 0 m)) [], fold_left add_path (map (p_col m n P) (seq 0 n)) []).
(** zip(path[:-1], path[1:]) *)
Fixpoint steps (p : list nat) : list (nat * nat) := match p with a :: ((b :: _) as r) => (a, b) :: steps r | _ => [] end.
Definition pair_leb (p q : nat * nat) : bool := (fst p <? fst q) || ((fst p =? fst q) && (snd p <=? snd q)).
Definition pair_eqb (p q : nat * nat) : bool := (fst p =? fst q) && (snd p =? snd q).
(** pairs.add *)
Definition add_pair (s : list (nat * nat)) (p : nat * nat) : list (nat * nat) := if existsb (pair_eqb p) s then s else s ++ [p].
Fixpoint insert_pair (p : nat * nat) (l : list (nat * nat)) : list (nat * nat) :=
  match l with [] => [p] | q :: r => if pair_leb p q then p :: l else q :: insert_pair p r end.
Definition sort_pairs (l : list (nat * nat)) : list (nat * nat) := fold_right insert_pair [] l.
(** 110-124 *)
Definition get_pairs (px py : list (list nat)) : list (nat * nat) :=
  let s := fold_left (fun s p => fold_left add_pair (steps p) s) px [] in
  let s := fold_left (fun s p => fold_left add_pair (steps p) s) py s in
  sort_pairs s.
Definition table_pairs (m n : nat) (f : fitted2) : list (nat * nat) :=
  let '(px, py) := get_paths m n (t_P f) in get_pairs px py.

(** 487-527, binary target: Cramer's V of the bins, and the two-by-two table of every test (by columns: non-event, event).
    analysis() without build() raises AttributeError: get_paths is called by build. *)
Definition an_metric (f : fitted2) : nat := length (t_nev f) - 2.
Definition an_cramer (f : fitted2) : res R :=
  if 2 <=? an_metric f then
    match chi2_cramer_v (firstn (an_metric f) (t_nev f)) (firstn (an_metric f) (t_ev f)) with Err e => Err e | Ok (_, v) => Ok v end
  else Ok 0%R.
Definition an_obs (f : fitted2) (p : nat * nat) : list (list Z) :=
  let nev := firstn (an_metric f) (t_nev f) in let ev := firstn (an_metric f) (t_ev f) in
  [[nth (fst p) nev 0%Z; nth (snd p) nev 0%Z]; [nth (fst p) ev 0%Z; nth (snd p) ev 0%Z]].
(** 533: [test] gives the p-value of a two-by-two table, iv and hhi_norm are those of build *)
Definition an_quality (test : list (list Z) -> R) (m n : nat) (f : fitted2) (iv hn : R) : R :=
  binning_quality_score iv (map (fun p => test (an_obs f p)) (table_pairs m n f)) hn.
