(** Vocabulary for C87: the tables of the 2D binnings, their figures and their histories. *)
From Coq Require Import List ZArith QArith Bool Arith Sorting String Reals.
From Verif Require Import Model.Arr Model.Core Model.Metrics Model.TwoD Model.TwoDCont Model.TwoDCart Model.TwoDTable Spec.CoreSpec Spec.TwoDSpec.
Import ListNotations.
Open Scope nat_scope.

(** [f] comes from a successful fit (of either strategy) whose prebinning found the splits sx and sy. *)
Definition binary_fit (ax ay : axis) (cx cy : option (list xval)) (sx sy : list Z) (c : cfg2) (data : list sample2) (f : fitted2) : Prop :=
  exists pre_x pre_y grow g solver P0,
    pre_x (filter (clean2 cx cy) data) = sx /\ pre_y (filter (clean2 cx cy) data) = sy /\
    sound_solver2 c solver /\ (forall k, List.length (P0 k) = k) /\
    (fit2 ax ay cx cy pre_x pre_y g solver P0 data = Ok f \/ fit2_cart ax ay cx cy pre_x pre_y grow g solver P0 data = Ok f).
Definition continuous_fit (ax ay : axis) (cx cy : option (list xval)) (sx sy : list Z) (c : cfg2) (data : list sample3) (f : fitted3) : Prop :=
  exists pre_x pre_y grow g solver P0,
    pre_x (filter (clean3 cx cy) data) = sx /\ pre_y (filter (clean3 cx cy) data) = sy /\
    sound_solver2 c solver /\ (forall k, List.length (P0 k) = k) /\
    (fit3 ax ay cx cy pre_x pre_y g solver P0 data = Ok f \/ fit3_cart ax ay cx cy pre_x pre_y grow g solver P0 data = Ok f).

(** Bin b of the table contains the grid cell in row y and column x: every pair of values falling in the cell is shown by bin b. *)
Definition cell_bin (sx sy : list Z) (f : fitted2) (y x b : nat) : Prop :=
  b < List.length (t_bx f) /\ forall u v, digitize sx u = x -> digitize sy v = y -> in_interval (t_bx f) b u /\ in_interval (t_by f) b v.

(** The figure of a table over a grid of m rows and n columns: every cell shows the number of its bin and the value of that bin;
    the lines of the top panel are, for the grid rows, the values of the cells from left to right with the last one repeated;
    those of the right panel, for the grid columns, from the first row to the last. *)
Definition row_line (m n : nat) (g : figure) (y : nat) : list R := nth y (fg_values g) [] ++ [nth (n - 1) (nth y (fg_values g) []) 0%R].
Definition col_line (m n : nat) (g : figure) (x : nat) : list R :=
  map (fun y => nth x (nth y (fg_values g) []) 0%R) (seq 0 m) ++ [nth x (nth (m - 1) (fg_values g) []) 0%R].
Definition figure_of (sx sy : list Z) (f : fitted2) (values : list R) (g : figure) : Prop :=
  let m := S (List.length sy) in let n := S (List.length sx) in
  List.length (fg_numbers g) = m /\ List.length (fg_values g) = m /\
  (forall y, y < m -> List.length (nth y (fg_numbers g) []) = n /\ List.length (nth y (fg_values g) []) = n) /\
  (forall y x, y < m -> x < n -> let b := nth x (nth y (fg_numbers g) []) 0 in
     cell_bin sx sy f y x b /\ nth_error values b = Some (nth x (nth y (fg_values g) []) 0%R)) /\
  (forall l, In l (fg_top g) <-> exists y, y < m /\ l = row_line m n g y) /\
  (forall l, In l (fg_right g) <-> exists x, x < n /\ l = col_line m n g x).

(** ** Histories: the flags of the object after a history of calls *)
Definition built_in (h : list top2) : Prop := exists b, In (QBuild None b) h.
(** the last analysis that succeeded *)
Definition last_quality {F} (k : kit F) (h : list top2) (q : option (option R)) : Prop :=
  (exists (h1 h2 : list top2) name v, h = (h1 ++ QAnalysis name :: h2)%list /\ built_in h1 /\ k_analysis k name = Ok v /\ q = Some v /\
     forall name', In (QAnalysis name') h2 -> forall v', k_analysis k name' <> Ok v') \/
  ((forall (h1 h2 : list top2) name, h = (h1 ++ QAnalysis name :: h2)%list -> built_in h1 -> forall v, k_analysis k name <> Ok v) /\ q = None).
(** what a call answers on an object with these flags *)
Definition answer2 {F} (k : kit F) (built : Prop) (q : option (option R)) (c : top2) (v : res (tval2 F)) : Prop :=
  match c with
  | QBuild (Some e) _ => v = Err e
  | QBuild None totals => v = Ok (QFrame (k_build k totals))
  | QStat i => (built /\ (forall r, nth_error (k_stats k) i = Some r -> v = Ok (QNumber (Some r)))) \/ (~ built /\ v = Err NotFitted)
  | QQuality => match q with Some r => v = Ok (QNumber r) | None => v = Err NotFitted end
  | QPlot bad w => (~ built /\ v = Err NotFitted) \/ (built /\ bad = true /\ v = Err ValueError) \/
      (built /\ bad = false /\ ((exists g, k_plot k w = Ok g /\ v = Ok (QFigure g)) \/ (exists e, k_plot k w = Err e /\ v = Err e)))
  | QAnalysis name => (~ built /\ v = Err OtherError) \/
      (built /\ ((exists q, k_analysis k name = Ok q /\ v = Ok QNone) \/ (exists e, k_analysis k name = Err e /\ v = Err e)))
  end.
(** scipy.stats.ttest_ind_from_stats(equal_var=False) on (mean, std, records): the p-value is NaN when both deviations are 0 and the
    means are equal (0 / 0), and only then. *)
Definition welch_scipy (welch : R * R * Z -> R * R * Z -> option R) : Prop :=
  (forall a b p, welch a b = Some p -> (0 <= p <= 1)%R) /\
  (forall a b, welch a b = None <-> snd (fst a) = 0%R /\ snd (fst b) = 0%R /\ fst (fst a) = fst (fst b)).
