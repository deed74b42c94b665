(** OptimalBinningSketch.plot_progress: binning_sketch.py:563-568, 948-969 and distributed/plots.py:12-45. One row of _solve_stats per
    solve that did not raise: the calls of add, the records, the divergence of the binning table. Texts other than the numbers are not
    modelled; real numbers for floats. *)
From Coq Require Import List ZArith QArith Reals Bool.
From Verif Require Import Model.Arr Model.Core Model.Metrics Model.GK Model.BSketch Model.OptSketch Model.SketchLife.
Import ListNotations.
Open Scope R_scope.

(** 951-958: the divergence the object was created with, from the table just built *)
Definition div_of (d : divergence) (nev ev : list Z) : R :=
  match d with IV => table_iv nev ev | JS => table_js nev ev | HELLINGER => table_hellinger nev ev | TRIANGULAR => table_triangular nev ev end.
(** rolling(n, min_periods=1).mean() and .std() at position i: over the first i + 1 values; std (ddof = 1) of one value is nan *)
Definition roll_mean (l : list R) (i : nat) : R := rsum (firstn (S i) l) / INR (S i).
Definition roll_std (l : list R) (i : nat) : option R :=
  match i with
  | O => None
  | _ => Some (sqrt (rsum (map (fun x => (x - roll_mean l i) ^ 2) (firstn (S i) l)) / INR i))
  end.
(** 21, 23-24 *)
Definition z_95 : R := 1959963984540054 / 1000000000000000.
Definition roll_err (l : list R) (i : nat) : option R := match roll_std l i with Some s => Some (s / sqrt (INR (S i))) | None => None end.
Definition band (l : list R) (i : nat) : option (R * R) :=
  let x := nth i l 0 in match roll_err l i with Some s => Some (Rmax 0 (x - s * z_95), x + s * z_95) | None => None end.
(** points of the two lines, the band, the three numbers of the legend, the two of the title *)
Record progress := mkProg { pr_div : list (Z * R); pr_mean : list (Z * R); pr_band : list (Z * option (R * R));
                            pr_last : R * R * option R; pr_title : nat * Z }.
(** df: the rows in order of solve; an empty one has no last value (IndexError) *)
Definition progress_plot (df : list (nat * Z * R)) : res progress :=
  match rev df with
  | [] => Err IndexError
  | (adds, recs, dv) :: _ =>
      let div := map snd df in
      let x := map (fun r => snd (fst r)) df in
      let ix := seq 0 (length df) in
      let last := (length df - 1)%nat in
      Ok (mkProg (combine x div) (combine x (map (roll_mean div) ix)) (combine x (map (band div) ix))
                 (dv, roll_mean div last, roll_err div last) (adds, recs))
  end.
(** The object with the divergences of its statistics, most recent first. *)
Record sobj := mkSO { so_obj : nst; so_divs : list R }.
Definition so_new : sobj := mkSO n_new [].
Definition so_add (e : Q) (s : sobj) (c : option (list (rec_ Z))) : sobj := mkSO (fst (n_add e (so_obj s) c)) (so_divs s).
Definition so_merge (s o : sobj) : sobj := mkSO (fst (n_merge (so_obj s) (so_obj o))) (so_divs s).
Definition so_solve (d : divergence) (solver : opt_solver) (m : nat) (s : sobj) : sobj :=
  let r := n_solve d solver m (so_obj s) in
  mkSO (fst r) (match snd r with
                | Ok _ => let t := snd (o_table (fst r)) in div_of d (fst t) (snd t) :: so_divs s
                | Err _ => so_divs s
                end).
(** 563-568 *)
Definition plot_progress (s : sobj) : res progress :=
  if negb (o_solved (so_obj s)) then Err NotFitted else
  progress_plot (rev (map2 (fun r dv => (fst (snd r), snd (snd r), dv)) (o_stats (so_obj s)) (so_divs s))).
