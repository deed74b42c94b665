(** optbinning/binning/multidimensional: ContinuousOptimalBinning2D (strategy "grid") and the value metrics of the two
    2D transforms. As [Model.TwoD]; targets are numbers in a common unit (every finite set of floats has one). *)
From Coq Require Import List ZArith QArith Qabs Bool Arith.
From Verif Require Import Model.Arr Model.Core Model.TwoD.
Import ListNotations.
Open Scope Z_scope.

(** a training sample: x, y and the target; a sample without a target is not modelled (its row's sum is nan) *)
Definition sample3 := (xval * xval * Z)%type.
Definition c_x (s : sample3) : xval := fst (fst s).
Definition c_y (s : sample3) : xval := snd (fst s).
Definition c_z (s : sample3) : Z := snd s.
(** preprocessing_2d.py:66-98 looks at the target only for missing values *)
Definition as2 (s : sample3) : sample2 := (c_x s, c_y s, Y0).
Definition missing3 (s : sample3) : bool := missing2 (as2 s).
Definition special3 (cx cy : option (list xval)) (s : sample3) : bool := special2 cx cy (as2 s).
Definition clean3 (cx cy : option (list xval)) (s : sample3) : bool := clean2 cx cy (as2 s).

(** continuous_binning_2d.py:714-737 _prebinning_matrices: R, S and SS are the cell sums of 1, z and z^2 *)
Definition matrix3 (ax ay : axis) (sx sy : list Z) (w : sample3 -> Z) (clean : list sample3) : list Z :=
  flat_map (fun i => map (fun j => zsum (map w (filter (fun s =>
      Nat.eqb (digitize sx (encode ax (c_x s))) j && Nat.eqb (digitize sy (encode ay (c_y s))) i) clean)))
    (seq 0 (S (length sx)))) (seq 0 (S (length sy))).
Definition one3 (s : sample3) : Z := 1.
Definition sq3 (s : sample3) : Z := c_z s * c_z s.

(** model_data_2d.py:249-251: mean and squared std of each rectangle *)
Definition qmean (s n : Z) : Q := (inject_Z s / inject_Z n)%Q.
Definition means_of (fr fs : list Z) (rows : list (list nat)) : list Q :=
  map (fun row => qmean (cell_sum fs row) (cell_sum fr row)) rows.
Definition var_of (fr fs fss : list Z) (row : list nat) : Q :=
  let r := cell_sum fr row in (qmean (cell_sum fss row) r - qmean (cell_sum fs row) r * qmean (cell_sum fs row) r)%Q.
(** model_data_2d.py:249-255: weight of a rectangle in the objective, int(|mean - t_mean| * scale) *)
Definition weight3 (scale : Z) (fr fs : list Z) (row : list nat) : Z :=
  let d := (qmean (cell_sum fs row) (cell_sum fr row) - qmean (zsum fs) (zsum fr))%Q in
  (Z.abs (Qnum d) * scale) / Z.pos (Qden d).

(** np.std (681-689): square root of the mean squared deviation; 0 without records. Squared. *)
Definition qsum (l : list Q) : Q := fold_right Qplus 0%Q l.
Definition np_var (zs : list Z) : Q :=
  match zs with
  | [] => 0%Q
  | _ => let n := Z.of_nat (length zs) in
         (qsum (map (fun z => (inject_Z z - qmean (zsum zs) n) * (inject_Z z - qmean (zsum zs) n)) zs) / inject_Z n)%Q
  end.

(** The table: [k_fit] has the number of records in [t_nev] and the sum of the targets in [t_ev] (the same post-processing
    loop, 636-662, as the non-events and events of the binary case); [k_var] is the squared column "Std". *)
Record fitted3 := { k_fit : fitted2; k_var : list Q }.
Definition k_records (f : fitted3) : list Z := t_nev (k_fit f).
Definition k_sums (f : fitted3) : list Z := t_ev (k_fit f).

Definition info3 (l : list sample3) : Z * Z := (Z.of_nat (length l), zsum (map c_z l)).

(** continuous_binning_2d.py:483-695 *)
Definition fit3 (ax ay : axis) (cx cy : option (list xval)) (pre_x pre_y : list sample3 -> list Z) (g : size_cfg)
    (solver : nat -> nat -> rdata -> list Q -> list Z -> option (list bool)) (P0 : nat -> list nat) (data : list sample3)
    : res fitted3 :=
  let clean := filter (clean3 cx cy) data in
  let sx := pre_x clean in let sy := pre_y clean in
  let n := S (length sx) in let m := S (length sy) in
  let fr := matrix3 ax ay sx sy one3 clean in
  let fs := matrix3 ax ay sx sy c_z clean in
  let fss := matrix3 ax ay sx sy sq3 clean in
  let rd := grid_rdata m n (admissible_cont g fr) in
  let spec := filter (special3 cx cy) data in let miss := filter missing3 data in
  match solver m n rd (means_of fr fs (rd_rows rd)) (map (cell_sum fr) (rd_rows rd)) with
  | None => Err OtherError
  | Some sol =>
      rbind (finish2 n sx sy fs fr (rd_rows rd) sol (P0 (m * n)%nat) (info3 spec) (info3 miss)) (fun f =>
      Ok {| k_fit := f;
            k_var := map (var_of fr fs fss) (t_rows f) ++ [np_var (map c_z spec); np_var (map c_z miss)] |})
  end.

(** transformations_2d.py:226-233: column "mean"; cut to the bins when neither special nor missing is "empirical" *)
Definition is_empirical {V} (m : marg V) : bool := match m with Empirical => true | Const _ _ => false end.
Definition cut {A V} (ms mm : marg V) (n_bins : nat) (l : list A) : list A :=
  if (is_empirical ms || is_empirical mm)%bool then l else firstn n_bins l.
Definition mean_column (records sums : list Z) : list Q :=
  map2 (fun n s => if 0 <? n then qmean s n else 0%Q) records sums.
Definition transform3_mean (ax ay : axis) (cx cy : option (list xval)) (f : fitted3) (ms mm : marg Q) (x y : xval) : res Q :=
  let n_bins := length (t_bx (k_fit f)) in
  transform2 ax ay cx cy (k_fit f) MValue ms mm (mean_column (cut ms mm n_bins (k_records f)) (cut ms mm n_bins (k_sums f))) 0%Q x y.
(** metric "indices": the same function as for a binary target *)
Definition transform3_indices (ax ay : axis) (cx cy : option (list xval)) (f : fitted3) (ms mm : marg Z) (x y : xval) : res Z :=
  transform2_indices ax ay cx cy (k_fit f) ms mm x y.

(** OptimalBinning2D.transform with metric "event_rate": transformations_2d.py:147-167 *)
Definition rate_column (nev ev : list Z) : list Q :=
  map2 (fun ne e => if (0 <? e) && (0 <? ne) then rate e ne else 0%Q) nev ev.
Definition transform2_rate (ax ay : axis) (cx cy : option (list xval)) (f : fitted2) (ms mm : marg Q) (x y : xval) : res Q :=
  let n_bins := length (t_bx f) in
  transform2 ax ay cx cy f MValue ms mm (rate_column (cut ms mm n_bins (t_nev f)) (cut ms mm n_bins (t_ev f))) 0%Q x y.

(** ContinuousBinningTable2D.build, binning_statistics_2d.py:666-683: column "WoE" and the totals *)
Definition table_means (f : fitted3) : list Q := mean_column (k_records f) (k_sums f).
Definition total_mean (f : fitted3) : Q := qmean (zsum (k_sums f)) (zsum (k_records f)).
Definition table_woe (f : fitted3) : list Q := map (fun m => (m - total_mean f)%Q) (table_means f).
Definition table_iv (f : fitted3) : list Q :=
  map2 (fun w n => (Qabs.Qabs w * (inject_Z n / inject_Z (zsum (k_records f))))%Q) (table_woe f) (k_records f).
