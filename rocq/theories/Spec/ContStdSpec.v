(** Vocabulary for the Std column under sample weights. *)
From Coq Require Import List ZArith Reals.
From Verif Require Import Model.Core Model.CP Model.Cont Spec.ContSpec.
Import ListNotations.
Open Scope R_scope.

Definition weight (r : krec) : R := IZR (k_w r).
Definition target (r : krec) : R := IZR (k_target r).
(** mean and standard deviation of the targets of [l], each record counted [weight] times *)
Definition weighted_mean (l : list krec) : R := rtotal (map (fun r => weight r * target r) l) / rtotal (map weight l).
Definition weighted_std (l : list krec) : R :=
  sqrt (rtotal (map (fun r => weight r * ((target r - weighted_mean l) * (target r - weighted_mean l))) l) / rtotal (map weight l)).
(** the entry is a number: np.sqrt of a negative number is nan *)
Definition std_is_number (c : stdcol) : Prop :=
  match c with
  | ByMoments s ss n => IZR n <> 0 /\ 0 <= IZR ss / IZR n - (IZR s / IZR n) ^ 2
  | NpStd l => l <> []
  | StdZero => True
  | StdNaN => False
  end.
