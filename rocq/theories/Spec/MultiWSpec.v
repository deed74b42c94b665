(** Weight of evidence of a class against the rest. *)
From Coq Require Import List ZArith Reals.
From Verif Require Import Model.Arr.
Import ListNotations.
Open Scope R_scope.

(** the displayed one-vs-rest WoE of class number c in row k of a table stored by columns (one per class): log of
    the ratio between the share of the other classes' records and the share of the class's records that fall in the
    row; 0 when the row lacks the class or all other classes *)
Definition ovr_woe (cols : list (list Z)) (k c : nat) : R :=
  let ez := nth k (nth c cols []) 0%Z in
  let nz := (zsum (map (fun col => nth k col 0%Z) cols) - ez)%Z in
  let E := IZR (zsum (nth c cols [])) in
  let N := IZR (zsum (map zsum cols)) - E in
  if (Z.ltb 0 ez && Z.ltb 0 nz)%bool then ln ((IZR nz / N) / (IZR ez / E)) else 0.
