(** optbinning/metrics/classification.py. Labels are booleans (true: event); scores are integers (any ordered values).
    sklearn's roc_curve, auc and confusion_matrix are modelled by their documented results. *)
From Coq Require Import List ZArith QArith Bool.
From Verif Require Import Model.Arr Model.Multi.
Import ListNotations.
Open Scope Z_scope.

Definition ysample := (bool * Z)%type.   (* y_true, y_pred_proba *)
Definition nb (l : list bool) : Z := Z.of_nat (count_true l).

(** ** gini, 15-31 *)
(** number of events / nonevents with a score of at least t *)
Definition tps (d : list ysample) (t : Z) : Z := nb (map (fun s => fst s && (t <=? snd s)) d).
Definition fps (d : list ysample) (t : Z) : Z := nb (map (fun s => negb (fst s) && (t <=? snd s)) d).
(** roc_curve: one point (fps, tps) per distinct score, in decreasing order, after the point (0, 0). (drop_intermediate removes
    only collinear points, which changes no area.) *)
Definition thresholds (d : list ysample) : list Z := rev (np_unique (map snd d)).
Definition roc (d : list ysample) : list (Z * Z) := (0, 0) :: map (fun t => (fps d t, tps d t)) (thresholds d).
(** auc: trapezoids, here twice the area in units of 1 / (events * nonevents) *)
Fixpoint trapezoids (l : list (Z * Z)) : Z :=
  match l with
  | a :: ((b :: _) as r) => (fst b - fst a) * (snd b + snd a) + trapezoids r
  | _ => 0
  end.
Definition n_event (d : list ysample) : Z := nb (map fst d).
Definition n_nonevent (d : list ysample) : Z := Z.of_nat (length d) - n_event d.
(** 2 * auc(fpr, tpr) - 1 *)
Definition gini (d : list ysample) : Q :=
  (inject_Z (trapezoids (roc d)) / inject_Z (n_event d * n_nonevent d) - 1)%Q.

(** ** ks, 34-68. [yy]: y_true[np.argsort(y_pred_proba)]. p_diff_i with cum_population = np.arange(0, n_samples) (56) *)
Fixpoint p_diffs (ne nn : Z) (i cum : Z) (yy : list bool) : list Q :=
  match yy with
  | [] => []
  | y :: r => let cum := cum + (if y then 1 else 0) in
      (inject_Z (i - cum) / inject_Z nn - inject_Z cum / inject_Z ne)%Q :: p_diffs ne nn (i + 1) cum r
  end.
(** np.argmax: first position of the maximum *)
Fixpoint first_max (l : list Q) (i : nat) (best : Q) (pos : nat) : Q * nat :=
  match l with
  | [] => (best, pos)
  | a :: r => if Qle_bool a best then first_max r (S i) best pos else first_max r (S i) a i
  end.
(** (ks_score, ks_position) *)
Definition ks (yy : list bool) : option (Q * nat) :=
  let ne := nb yy in let nn := Z.of_nat (length yy) - ne in
  match p_diffs ne nn 0 0 yy with [] => None | a :: r => Some (first_max r 1 a 0) end.

(** ** imbalanced_classification_metrics, 71-117 *)
Definition ypair := (bool * bool)%type.   (* y_true, y_pred *)
Definition cell (a b : bool) (d : list ypair) : Z := nb (map (fun p => Bool.eqb (fst p) a && Bool.eqb (snd p) b) d).
(** confusion_matrix(...).ravel(): rows true, columns predicted, labels in increasing order; with a single label in both
    vectors it has one cell and the unpacking in 86 raises ValueError (None). *)
Definition confusion (d : list ypair) : option (Z * Z * Z * Z) :=
  let labels := map fst d ++ map snd d in
  if (existsb (fun b => b) labels && existsb negb labels)%bool
  then Some (cell false false d, cell false true d, cell true false d, cell true true d) else None.
Record class_metrics := { tpr : Q; tnr : Q; fpr : Q; fnr : Q; balanced_accuracy : Q }.
(** 88-101 (discriminant power, 103-104, is not modelled) *)
Definition imbalanced_metrics (d : list ypair) : option class_metrics :=
  match confusion d with
  | None => None
  | Some (tn, fp, fn, tp) =>
      let tpr := (inject_Z tp / inject_Z (tp + fn))%Q in
      let tnr := (inject_Z tn / inject_Z (fp + tn))%Q in
      Some {| tpr := tpr; tnr := tnr; fpr := (1 - tnr)%Q; fnr := (1 - tpr)%Q; balanced_accuracy := ((1 # 2) * (tpr + tnr))%Q |}
  end.
