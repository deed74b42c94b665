(** The integer objective coefficients of the constraint-programming models. *)
From Coq Require Import List ZArith Reals.
From Verif Require Import Model.Arr Model.Core Model.Metrics.
Import ListNotations.
Open Scope R_scope.

(** numpy astype(int): truncation towards zero *)
Definition trunc (x : R) : Z := if Rle_dec 0 x then Int_part x else (- Int_part (- x))%Z.
(** model_data.py:131-141, model_data_2d.py:146-158: divergence term of a candidate bin r = (non-events, events) when tot = (all
    non-events, all events) *)
Definition div_of (d : divergence) (tot r : Z * Z) : R :=
  let p := IZR (snd r) / IZR (snd tot) in let q := IZR (fst r) / IZR (fst tot) in
  match d with IV => jeffrey1 p q | JS => js1 p q | HELLINGER => hellinger1 p q | TRIANGULAR => triangular1 p q end.
(** model_data.py:143-149, 208-213 and model_data_2d.py:160-161: scaled by M (10^6 in the code) and truncated *)
Definition scaled_div (M : Z) (d : divergence) (tot r : Z * Z) : Z := trunc (div_of d tot r * IZR M).
