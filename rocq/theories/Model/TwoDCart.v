(** optbinning/binning/multidimensional/model_data_cart_2d.py: strategy "cart" of the two 2D binnings, where the candidate
    rectangles are unions of leaves of a decision tree fitted on the grid coordinates. *)
From Coq Require Import List ZArith QArith Bool Arith.
From Verif Require Import Model.Arr Model.Core Model.TwoD Model.TwoDCont.
Import ListNotations.
Open Scope Z_scope.

(** the fitted tree (binning_2d.py:631-663); feature 0 is the column (x), feature 1 the row (y). A threshold between two integer
    coordinates is replaced by its floor: coordinate <= threshold iff coordinate <= floor. *)
Inductive tree := Leaf | Node (on_x : bool) (thr : Z) (l r : tree).
(** get_rectangles, 31-69 (with refine_rectangles, 17-28): for each leaf the tests on the way from the root, as
    (feature is x, "<=", threshold). The code numbers the leaves by node id, here from left to right: the numbers are only
    compared for equality. *)
Fixpoint paths (t : tree) : list (list (bool * bool * Z)) :=
  match t with
  | Leaf => [[]]
  | Node f thr l r => map (cons (f, true, thr)) (paths l) ++ map (cons (f, false, thr)) (paths r)
  end.
(** 80-93: mask_x, mask_y *)
Definition step_ok (s : bool * bool * Z) (x y : nat) : bool :=
  let v := Z.of_nat (if fst (fst s) then x else y) in if snd (fst s) then v <=? snd s else snd s <? v.
Definition mask_x (p : list (bool * bool * Z)) (x : nat) : bool := forallb (fun s : bool * bool * Z => if fst (fst s) then step_ok s x 0 else true) p.
Definition mask_y (p : list (bool * bool * Z)) (y : nat) : bool := forallb (fun s : bool * bool * Z => if fst (fst s) then true else step_ok s 0 y) p.
(** 95-96: the cells of a leaf *)
Definition leaf_cells (m n : nat) (p : list (bool * bool * Z)) : list nat :=
  filter (fun c => mask_x p (Nat.modulo c n) && mask_y p (Nat.div c n)) (seq 0 (m * n)).
(** 72-98 get_auxiliary_matrices: A, starting from the uninitialised np.empty [A0] *)
Definition aux_A (m n : nat) (t : tree) (A0 : list nat) : list nat := assign 0 (map (leaf_cells m n) (paths t)) A0.

(** 135: the labels met in a window, sorted *)
Definition labels (n nl : nat) (A : list nat) (w : rect) : list nat :=
  filter (fun t => existsb (fun c => Nat.eqb (nth c A 0%nat) t) (cells n w)) (seq 0 nl).
(** 138: M = np.isin(A, path), as a predicate on cells *)
Definition in_labels (A : list nat) (p : list nat) (c : nat) : bool := nmem (nth c A 0%nat) p.
(** 139-140 and 142: sums of M by column and by row, and 0, have at most two values *)
Definition col_sums (m n : nat) (M : nat -> bool) : list nat :=
  map (fun x => length (filter (fun y => M (y * n + x)%nat) (seq 0 m))) (seq 0 n).
Definition row_sums (m n : nat) (M : nat -> bool) : list nat :=
  map (fun y => length (filter (fun x => M (y * n + x)%nat) (seq 0 n))) (seq 0 m).
Definition two_values (l : list nat) : bool := Nat.leb (length (nodup Nat.eq_dec (l ++ [0%nat]))) 2.
Definition shape_ok (m n : nat) (M : nat -> bool) : bool := two_values (col_sums m n M) && two_values (row_sums m n M).
(** 143: row = G[M] *)
Definition cells_of (m n : nat) (M : nat -> bool) : list nat := filter M (seq 0 (m * n)).
Definition seen_path (p : list nat) (seen : list (list nat)) : bool := existsb (fun q => if list_eq_dec Nat.eq_dec p q then true else false) seen.

(** 131-195 (257-303 for a continuous target): the windows in loop order; [ok] is the size check, whose "continue" skips paths.add *)
Fixpoint cart_loop (m n : nat) (ok : list nat -> bool) (nl : nat) (A : list nat) (ws : list rect) (seen : list (list nat)) : list (list nat) :=
  match ws with
  | [] => []
  | w :: rest =>
      let p := labels n nl A w in
      if seen_path p seen then cart_loop m n ok nl A rest seen
      else if Nat.leb (length p) 1 then cart_loop m n ok nl A rest (p :: seen)
      else
        let M := in_labels A p in
        if shape_ok m n M then
          let row := cells_of m n M in
          if ok row then row :: cart_loop m n ok nl A rest (p :: seen)
          else cart_loop m n ok nl A rest seen
        else cart_loop m n ok nl A rest (p :: seen)
  end.
Definition cart_rows (m n : nat) (t : tree) (A0 : list nat) (ok : list nat -> bool) : list (list nat) :=
  cart_loop m n ok (length (paths t)) (aux_A m n t A0) (all_rects m n) [].
(** 173-181: np.array([G[M]]) has one row, so the "last column" is the last cell and the "last row" is all the cells *)
Definition cart_rdata (m n : nat) (t : tree) (A0 : list nat) (ok : list nat -> bool) : rdata :=
  let rows := cart_rows m n t A0 ok in
  {| rd_rows := rows; rd_ox := map (fun row => [last row 0%nat]) rows; rd_oy := rows |}.

(** binning_2d.py:557-760 with strategy "cart"; [grow] is the decision tree learner. A tree without a split makes
    get_rectangles fail (45-49: np.where(right == 0)[0].item() on an empty array). *)
Definition fit2_cart (ax ay : axis) (cx cy : option (list xval)) (pre_x pre_y : list sample2 -> list Z) (grow : list sample2 -> tree)
    (g : size_cfg) (solver : nat -> nat -> rdata -> list Q -> list Z -> option (list bool)) (P0 : nat -> list nat) (data : list sample2)
    : res fitted2 :=
  let clean := filter (clean2 cx cy) data in
  let sx := pre_x clean in let sy := pre_y clean in
  let n := S (length sx) in let m := S (length sy) in
  let fne := matrix ax ay sx sy true clean in let fe := matrix ax ay sx sy false clean in
  match grow clean with
  | Leaf => Err ValueError
  | t =>
      let rd := cart_rdata m n t (P0 (m * n)%nat) (admissible g fe fne) in
      match solver m n rd (rates_of fe fne (rd_rows rd)) (records_of fe fne (rd_rows rd)) with
      | None => Err OtherError
      | Some sol =>
          finish2 n sx sy fe fne (rd_rows rd) sol (P0 (m * n)%nat)
            (target_info2 (filter (special2 cx cy) data)) (target_info2 (filter missing2 data))
      end
  end.
(** continuous_binning_2d.py:483-695 with strategy "cart" *)
Definition fit3_cart (ax ay : axis) (cx cy : option (list xval)) (pre_x pre_y : list sample3 -> list Z) (grow : list sample3 -> tree)
    (g : size_cfg) (solver : nat -> nat -> rdata -> list Q -> list Z -> option (list bool)) (P0 : nat -> list nat) (data : list sample3)
    : res fitted3 :=
  let clean := filter (clean3 cx cy) data in
  let sx := pre_x clean in let sy := pre_y clean in
  let n := S (length sx) in let m := S (length sy) in
  let fr := matrix3 ax ay sx sy one3 clean in
  let fs := matrix3 ax ay sx sy c_z clean in
  let fss := matrix3 ax ay sx sy sq3 clean in
  let spec := filter (special3 cx cy) data in let miss := filter missing3 data in
  match grow clean with
  | Leaf => Err ValueError
  | t =>
      let rd := cart_rdata m n t (P0 (m * n)%nat) (admissible_cont g fr) in
      match solver m n rd (means_of fr fs (rd_rows rd)) (map (cell_sum fr) (rd_rows rd)) with
      | None => Err OtherError
      | Some sol =>
          rbind (finish2 n sx sy fs fr (rd_rows rd) sol (P0 (m * n)%nat) (info3 spec) (info3 miss)) (fun f =>
          Ok {| k_fit := f; k_var := map (var_of fr fs fss) (t_rows f) ++ [np_var (map c_z spec); np_var (map c_z miss)] |})
      end
  end.
