(** Vocabulary for continuous 2D binning. *)
From Coq Require Import List ZArith QArith Bool Arith.
From Verif Require Import Model.Arr Model.Core Model.TwoD Model.TwoDCont Spec.CoreSpec Spec.TwoDSpec.
Import ListNotations.
Open Scope Z_scope.

(** the training samples that transform sends to bin b *)
Definition lands3 (ax ay : axis) (cx cy : option (list xval)) (f : fitted3) (b : nat) (s : sample3) : bool :=
  match transform3_indices ax ay cx cy f Empirical Empirical (c_x s) (c_y s) with Ok i => Z.eqb i (Z.of_nat b) | Err _ => false end.
(** number of samples and sum of their targets *)
Definition count3 (l : list sample3) : Z := Z.of_nat (length l).
Definition total3 (l : list sample3) : Z := zsum (map c_z l).
(** mean target of the samples, 0 without samples *)
Definition mean3 (l : list sample3) : Q := match l with [] => 0%Q | _ => (inject_Z (total3 l) / inject_Z (count3 l))%Q end.
(** mean squared deviation from the mean *)
Definition sq_dev3 (l : list sample3) : Q :=
  match l with
  | [] => 0%Q
  | _ => (fold_right Qplus 0 (map (fun s => (inject_Z (c_z s) - mean3 l) * (inject_Z (c_z s) - mean3 l)) l) / inject_Z (count3 l))%Q
  end.
(** mean of a row of the table *)
Definition row_mean (f : fitted3) (b : nat) : Q := (inject_Z (nth b (k_sums f) 0%Z) / inject_Z (nth b (k_records f) 0%Z))%Q.
