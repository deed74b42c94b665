(** optbinning/binning/multidimensional: OptimalBinning2D with solver "cp" (the constraints of "mip" are the same).
    Values are order codes ([Model.Core]); a category is a code too, its position in [categories] is doubled so that the
    half-integer split points of the prebinning are integers. Counts are unweighted (2D has no weights). *)
From Coq Require Import List ZArith QArith Bool Arith.
From Verif Require Import Model.Arr Model.Core.
Import ListNotations.
Open Scope Z_scope.

(** ** Rectangles: model_data_2d.py:49-132 *)

(** rectangle with top-left cell (i, j), k rows and l columns; loop variables of 84-90 *)
Record rect := mkRect { r_i : nat; r_j : nat; r_k : nat; r_l : nat }.
(** 75-81 and 91: the cells (row-major numbers) of a rectangle in a grid with n columns *)
Definition cells (n : nat) (r : rect) : list nat :=
  map (fun c => (r_i r * n + r_j r + c)%nat)
      (flat_map (fun ik => map (fun jl => (n * ik + jl)%nat) (seq 0 (r_l r))) (seq 0 (r_k r))).
(** 84-90: all rectangles of an m x n grid in loop order *)
Definition all_rects (m n : nat) : list rect :=
  flat_map (fun i => flat_map (fun j => flat_map (fun k => map (fun l => mkRect i j k l) (seq 1 (n - j)))
    (seq 1 (m - i))) (seq 0 n)) (seq 0 m).
Definition cell_sum (f : list Z) (row : list nat) : Z := zsum (map (fun c => nth c f 0) row).

Record size_cfg := { min_size : option Z; max_size : option Z; min_ev : option Z; max_ev : option Z;
                     min_nev : option Z; max_nev : option Z }.
Definition ge_opt (o : option Z) (v : Z) : bool := match o with Some b => b <=? v | None => true end.
Definition le_opt (o : option Z) (v : Z) : bool := match o with Some b => v <=? b | None => true end.
(** 93-112: which rectangles are kept (binary target) *)
Definition admissible (g : size_cfg) (fe fne : list Z) (row : list nat) : bool :=
  let e := cell_sum fe row in let ne := cell_sum fne row in
  negb ((e =? 0) || (ne =? 0)) && ge_opt (min_size g) (e + ne) && le_opt (max_size g) (e + ne) &&
  ge_opt (min_ev g) e && le_opt (max_ev g) e && ge_opt (min_nev g) ne && le_opt (max_nev g) ne.
(** continuous_model_data, 214-221 *)
Definition admissible_cont (g : size_cfg) (fr : list Z) (row : list nat) : bool :=
  let r := cell_sum fr row in negb (r =? 0) && ge_opt (min_size g) r && le_opt (max_size g) r.
Definition rects_of (m n : nat) (ok : list nat -> bool) : list rect :=
  filter (fun r => ok (cells n r)) (all_rects m n).
(** 117-123 *)
Definition outer_x (n : nat) (r : rect) : list nat :=
  map (fun a => nth (a * r_l r + (r_l r - 1)) (cells n r) 0%nat) (seq 0 (r_k r)).
Definition outer_y (n : nat) (r : rect) : list nat :=
  map (fun b => nth ((r_k r - 1) * r_l r + b) (cells n r) 0%nat) (seq 0 (r_l r)).

(** what the optimizer gets: cells and outer cells of every rectangle *)
Record rdata := { rd_rows : list (list nat); rd_ox : list (list nat); rd_oy : list (list nat) }.
Definition grid_rdata (m n : nat) (ok : list nat -> bool) : rdata :=
  let rs := rects_of m n ok in
  {| rd_rows := map (cells n) rs; rd_ox := map (outer_x n) rs; rd_oy := map (outer_y n) rs |}.

(** 114-115: cols[c], one entry per occurrence of cell c *)
Definition cols (rows : list (list nat)) (c : nat) : list nat :=
  flat_map (fun t => map (fun _ => t) (filter (Nat.eqb c) (nth t rows []))) (seq 0 (length rows)).
Definition nmem (a : nat) (l : list nat) : bool := existsb (Nat.eqb a) l.

(** _connected_rectangles, 16-46. Keys of connected_x / connected_y: *)
Definition keys_x (m n : nat) : list nat := flat_map (fun i => map (fun j => (n * i + j)%nat) (seq 0 (n - 1))) (seq 0 m).
Definition keys_y (m n : nat) : list nat := flat_map (fun i => map (fun j => (n * i + j)%nat) (seq 0 n)) (seq 0 (m - 1)).
(** 34: rectangles sharing a cell with rectangle t *)
Definition overlaps (rd : rdata) (t u : nat) : bool := existsb (fun r => nmem u (cols (rd_rows rd) r)) (nth t (rd_rows rd) []).
Definition conn (keys : list nat) (step : nat) (outer : list (list nat)) (rd : rdata) (t : nat) : list nat :=
  filter (fun u => existsb (fun r => nmem r keys && nmem u (cols (rd_rows rd) (r + step))) (nth t outer []) && negb (overlaps rd t u))
         (seq 0 (length (rd_rows rd))).
Definition conn_x (m n : nat) (rd : rdata) (t : nat) : list nat := conn (keys_x m n) 1 (rd_ox rd) rd t.
Definition conn_y (m n : nat) (rd : rdata) (t : nat) : list nat := conn (keys_y m n) n (rd_oy rd) rd t.

(** ** Constraints: cp_2d.py:38-79 and 107-198 (mip_2d.py: the same) *)
Inductive trend2 := Asc2 | Desc2.
Record cfg2 := { trend_x : option trend2; trend_y : option trend2; min_bins2 : option Z; max_bins2 : option Z;
                 diff_x : Q; diff_y : Q; gamma2 : bool }.
Definition b2z (b : bool) : Z := if b then 1 else 0.
Definition xv (sol : list bool) (i : nat) : Z := b2z (nth i sol false).
Definition xsum2 (sol : list bool) (l : list nat) : Z := zsum (map (xv sol) l).
(** 122-124 *)
Definition unique_assignment2 (n_grid : nat) (rows : list (list nat)) (sol : list bool) : Prop :=
  forall c, (c < n_grid)%nat -> xsum2 sol (cols rows c) = 1.
(** 114-118 and 126-135, with the auxiliary variable 0 <= d <= max - min *)
Definition min_max_bins2 (g : cfg2) (n_rect : nat) (sol : list bool) : Prop :=
  let nb := xsum2 sol (seq 0 n_rect) in
  match min_bins2 g, max_bins2 g with
  | Some lo, Some hi => exists d, 0 <= d <= hi - lo /\ d + nb - hi = 0
  | Some lo, None => lo <= nb
  | None, Some hi => nb <= hi
  | None, None => True
  end.
(** 146-152: rectangle u may not follow rectangle t *)
Definition bad (tr : trend2) (md : Q) (er : list Q) (t u : nat) : bool :=
  match tr with
  | Asc2 => Qle_bool (nth u er 0%Q) (nth t er 0%Q + md)
  | Desc2 => Qle_bool (nth t er 0%Q) (nth u er 0%Q + md)
  end.
(** 154-156; the three branches 141-198 add the same constraints axis by axis *)
Definition mono2 (tr : option trend2) (md : Q) (er : list Q) (n_rect : nat) (conn : nat -> list nat) (sol : list bool) : Prop :=
  match tr with
  | None => True
  | Some tr => forall t, (t < n_rect)%nat ->
      let ind := filter (bad tr md er t) (conn t) in
      ind <> [] -> xsum2 sol ind <= Z.of_nat (length ind) * (1 - xv sol t)
  end.
(** 50-54 and 72-79 *)
Definition dominating2 (g : cfg2) (nrec : list Z) (sol : list bool) : Prop :=
  if gamma2 g then exists pmin pmax, 0 <= pmin <= zsum nrec /\ 0 <= pmax <= zsum nrec /\ pmin <= pmax /\
     forall i, (i < length nrec)%nat ->
       pmin <= zsum nrec * (1 - xv sol i) + nth i nrec 0 * xv sol i /\ nth i nrec 0 * xv sol i <= pmax
  else True.
Definition feasible2 (m n : nat) (g : cfg2) (rd : rdata) (er : list Q) (nrec : list Z) (sol : list bool) : Prop :=
  length sol = length (rd_rows rd) /\
  unique_assignment2 (m * n) (rd_rows rd) sol /\
  min_max_bins2 g (length (rd_rows rd)) sol /\
  mono2 (trend_x g) (diff_x g) er (length (rd_rows rd)) (conn_x m n rd) sol /\
  mono2 (trend_y g) (diff_y g) er (length (rd_rows rd)) (conn_y m n rd) sol /\
  dominating2 g nrec sol.
(** 56-59, the term without regularization *)
Definition objective2 (c : list Z) (sol : list bool) : Z := zsum (map2 (fun v b => v * b2z b) c sol).

(** event rates: model_data_2d.py:143-147 *)
Definition rate (e ne : Z) : Q := (inject_Z e / inject_Z (e + ne))%Q.
Definition rates_of (fe fne : list Z) (rows : list (list nat)) : list Q :=
  map (fun row => rate (cell_sum fe row) (cell_sum fne row)) rows.
Definition records_of (fe fne : list Z) (rows : list (list nat)) : list Z :=
  map (fun row => cell_sum fe row + cell_sum fne row) rows.

(** ** Post-processing: binning_2d.py:692-743 *)
Definition set_cell (v : nat) (P : list nat) (c : nat) : list nat :=
  map (fun k => if Nat.eqb k c then v else nth k P 0%nat) (seq 0 (length P)).
(** 715: P[r] = i *)
Definition set_cells (v : nat) (row : list nat) (P : list nat) : list nat := fold_left (set_cell v) row P.
Fixpoint assign (i : nat) (sel : list (list nat)) (P : list nat) : list nat :=
  match sel with [] => P | row :: r => assign (S i) r (set_cells i row P) end.
Definition list_min (l : list nat) : nat := match l with [] => 0%nat | a :: r => fold_right Nat.min a r end.
Definition list_max' (l : list nat) : nat := fold_right Nat.max 0%nat l.
(** -inf / +inf *)
Definition edge_list (splits : list Z) : list (option Z) := None :: map Some splits ++ [None].
(** 923-954 _splits_xy_optimal: position range of bin i along one axis, [coord] gives the axis coordinate of a cell *)
Definition bin_interval (P : list nat) (i : nat) (coord : nat -> nat) (splits : list Z) : res (option Z * option Z) :=
  let pos := map coord (filter (fun c => Nat.eqb (nth c P 0%nat) i) (seq 0 (length P))) in
  match pos with
  | [] => Err ValueError
  | _ => match nth_error (edge_list splits) (list_min pos), nth_error (edge_list splits) (S (list_max' pos)) with
         | Some lo, Some hi => Ok (lo, hi)
         | _, _ => Err IndexError
         end
  end.
Fixpoint rmap {A B} (f : A -> res B) (l : list A) : res (list B) :=
  match l with [] => Ok [] | a :: r => rbind (f a) (fun b => rbind (rmap f r) (fun bs => Ok (b :: bs))) end.
(** np.array(rows, dtype=object) is two-dimensional when all the rows have the same length; its rows are then object arrays,
    which numpy rejects as an index (lines 700 and 715) *)
Definition same_lengths (rows : list (list nat)) : bool :=
  match rows with [] => false | r :: rest => forallb (fun s => Nat.eqb (length s) (length r)) rest end.

Record fitted2 := {
  t_rows : list (list nat);                      (* self._selected_rows *)
  t_bx : list (option Z * option Z);             (* self._splits_x_optimal *)
  t_by : list (option Z * option Z);             (* self._splits_y_optimal *)
  t_nev : list Z; t_ev : list Z;                 (* self._n_nonevent, self._n_event *)
  t_P : list nat }.
(** special / missing: pairs (non-events, events); [P0] is the uninitialised np.empty *)
Definition finish2 (n : nat) (sx sy : list Z) (fe fne : list Z) (rows : list (list nat)) (sol : list bool)
    (P0 : list nat) (special missing : Z * Z) : res fitted2 :=
  let sel := select sol rows in
  if (same_lengths rows && negb (Nat.eqb (length sel) 0))%bool then Err IndexError else
  let P := assign 0 sel P0 in
  rbind (rmap (fun i => bin_interval P i (fun c => Nat.modulo c n) sx) (seq 0 (length sel))) (fun bx =>
  rbind (rmap (fun i => bin_interval P i (fun c => Nat.div c n) sy) (seq 0 (length sel))) (fun by' =>
  Ok {| t_rows := sel; t_bx := bx; t_by := by';
        t_nev := map (cell_sum fne) sel ++ [fst special; fst missing];
        t_ev := map (cell_sum fe) sel ++ [snd special; snd missing];
        t_P := P |})).

(** ** Preprocessing: preprocessing_2d.py:66-118 *)
Definition sample2 := (xval * xval * yval)%type.
Definition s_x (s : sample2) : xval := fst (fst s).
Definition s_y (s : sample2) : xval := snd (fst s).
Definition s_z (s : sample2) : yval := snd s.
Definition missing2 (s : sample2) : bool := x_isnull (s_x s) || y_isnull (s_z s) || (x_isnull (s_y s) || y_isnull (s_z s)).
Definition special2 (cx cy : option (list xval)) (s : sample2) : bool :=
  match cx with Some l => isin l (s_x s) | None => false end || match cy with Some l => isin l (s_y s) | None => false end.
Definition clean2 (cx cy : option (list xval)) (s : sample2) : bool := negb (missing2 s) && negb (special2 cx cy s).

(** dtype of an axis; the categories come from categorical_transform on the clean data *)
Inductive axis := ANum | ACat (cats : list Z).
Fixpoint position (x : Z) (l : list Z) : nat := match l with [] => 0%nat | a :: r => if Z.eqb a x then 0%nat else S (position x r) end.
(** 107-113: the code the prebinning sees *)
Definition encode (a : axis) (x : xval) : Z :=
  match a with ANum => num x | ACat cats => 2 * Z.of_nat (position (num x) cats) end.
(** binning_2d.py:772-811: number of clean samples of a class in grid cell (i, j), i along y and j along x *)
Definition matrix (ax ay : axis) (sx sy : list Z) (nonevent : bool) (clean : list sample2) : list Z :=
  flat_map (fun i => map (fun j => Z.of_nat (length (filter (fun s =>
      Bool.eqb (y_is0 (s_z s)) nonevent &&
      (Nat.eqb (digitize sx (encode ax (s_x s))) j && Nat.eqb (digitize sy (encode ay (s_y s))) i)) clean)))
    (seq 0 (S (length sx)))) (seq 0 (S (length sy))).
(** target_info on the samples set aside, binning_2d.py:772-798 *)
Definition target_info2 (l : list sample2) : Z * Z :=
  (Z.of_nat (length (filter (fun s => y_is0 (s_z s)) l)), Z.of_nat (length (filter (fun s => negb (y_is0 (s_z s))) l))).

(** ** fit, binning_2d.py:557-760, strategy "grid". [pre] is the prebinning of one axis, [solver] the optimisation oracle;
    [None] is a status other than OPTIMAL / FEASIBLE (cp_2d.py:99-103, where [np.bool] raises with the NumPy releases >= 1.24). *)
Definition fit2 (ax ay : axis) (cx cy : option (list xval)) (pre_x pre_y : list sample2 -> list Z) (g : size_cfg)
    (solver : nat -> nat -> rdata -> list Q -> list Z -> option (list bool)) (P0 : nat -> list nat) (data : list sample2) : res fitted2 :=
  let clean := filter (clean2 cx cy) data in
  let sx := pre_x clean in let sy := pre_y clean in
  let n := S (length sx) in let m := S (length sy) in
  let fne := matrix ax ay sx sy true clean in let fe := matrix ax ay sx sy false clean in
  let rd := grid_rdata m n (admissible g fe fne) in
  match solver m n rd (rates_of fe fne (rd_rows rd)) (records_of fe fne (rd_rows rd)) with
  | None => Err OtherError (* AttributeError *)
  | Some sol =>
      finish2 n sx sy fe fne (rd_rows rd) sol (P0 (m * n)%nat)
        (target_info2 (filter (special2 cx cy) data)) (target_info2 (filter missing2 data))
  end.

(** ** transform: transformations_2d.py:19-105 *)
Definition lo_ok (lo : option Z) (x : Z) : bool := match lo with None => true | Some a => a <=? x end.
Definition hi_ok (hi : option Z) (x : Z) : bool := match hi with None => true | Some b => x <? b end.
Definition hi_le (hi : option Z) (x : Z) : bool := match hi with None => false | Some b => b <=? x end.
(** binning_statistics_2d.py:41-46: categories whose position digitizes to 1 in [lo, hi] *)
Definition bin_cats (b : option Z * option Z) (cats : list Z) : list Z :=
  select (map (fun k => Nat.eqb ((if lo_ok (fst b) (2 * Z.of_nat k) then 1 else 0) + (if hi_le (snd b) (2 * Z.of_nat k) then 1 else 0)) 1)
              (seq 0 (length cats))) cats.
Definition in_axis (a : axis) (b : option Z * option Z) (x : xval) : bool :=
  match a with
  | ANum => lo_ok (fst b) (num x) && hi_ok (snd b) (num x)
  | ACat cats => zmem (num x) (bin_cats b cats)
  end.
Fixpoint apply_bins {V} (ax ay : axis) (i : nat) (bx by' : list (option Z * option Z)) (mv : list V) (x y : xval) (cur : res V) : res V :=
  match bx, by' with
  | b :: bx', c :: by'' =>
      apply_bins ax ay (S i) bx' by'' mv x y (if (in_axis ax b x && in_axis ay c y)%bool then idx mv i else cur)
  | _, _ => cur
  end.
Definition truthy_codes (o : option (list xval)) : bool := match o with Some (_ :: _) => true | _ => false end.
Definition transform2 {V} (ax ay : axis) (cx cy : option (list xval)) (f : fitted2) (k : mkind) (ms mm : marg V) (mv : list V)
    (zero : V) (x y : xval) : res V :=
  let n_bins := length (t_bx f) in
  let s := (x, y, Y0) in
  let start := if clean2 cx cy s then apply_bins ax ay 0 (t_bx f) (t_by f) mv x y (Ok zero) else Ok zero in
  let sp := if (truthy_codes cx || truthy_codes cy)%bool && special2 cx cy s then table_or_const k ms mv n_bins else start in
  if missing2 s then table_or_const k mm mv (S n_bins) else sp.
(** metric "indices": 47-49; clean values outside every bin get 0 (66) *)
Definition transform2_indices (ax ay : axis) (cx cy : option (list xval)) (f : fitted2) (ms mm : marg Z) (x y : xval) : res Z :=
  transform2 ax ay cx cy f MIndices ms mm (map Z.of_nat (seq 0 (length (t_bx f) + 2))) 0 x y.
