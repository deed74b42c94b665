(** What a user of OptimalBinningSketch relies on. *)
From Coq Require Import List ZArith Bool QArith Qround.
From Verif Require Import Model.Arr Model.Core Model.GK Model.BSketch Model.OptSketch Spec.GKSpec.
Import ListNotations.
Open Scope Z_scope.

(** A binning sketch whose event / non-event values were added along the histories [he] / [hne], with its
    counts of missing and special records. *)
Definition sketch_of (e : Q) (he hne : hist) (me mne se sne : Z) : bdata :=
  mkBD (build e he) (build e hne) me mne se sne.

(** How far the cumulated count of the bins up to a split may be from the number of values up to it:
    0 when 2 eps (n - 1) < 2. *)
Definition slack (e : Q) (n : Z) : Z := Z.max 1 (Qfloor (2 * e * inject_Z (n - 1))) - 1.

(** Events / non-events of the records whose category is in [g], from the dictionary of categories. *)
Definition events_in (t : list crow) (g : list Z) : Z := zsum (map (fun r => snd (snd r)) (filter (fun r => zmem (fst r) g) t)).
Definition nonevents_in (t : list crow) (g : list Z) : Z := zsum (map (fun r => fst (snd r)) (filter (fun r => zmem (fst r) g) t)).
