(** Vocabulary for categorical binning. *)
From Coq Require Import List ZArith Bool Permutation.
From Verif Require Import Model.Arr Model.Core Model.Cat Spec.CoreSpec.
Import ListNotations.
Open Scope Z_scope.

(** What pandas' groupby/sort_values guarantees: each distinct category exactly once, ordered by the
    mean of y (compared by cross-multiplication), ties in any order. *)
Definition by_event_rate (xs : list xval) (ys : list yval) (cats : list Z) : Prop :=
  NoDup cats /\ (forall c, In c cats <-> In (XNum c) xs) /\
  ForallOrdPairs (fun a b => cat_events a xs ys * cat_records b xs <= cat_events b xs ys * cat_records a xs) cats.
Definition order_ok (order : list xval -> list yval -> list Z) : Prop :=
  forall xs ys, length xs = length ys -> ~ In XNaN xs -> by_event_rate xs ys (order xs ys).

(** bin i of the list of bins lists the category *)
Definition listed (bins : list (list Z)) (i : nat) (c : Z) : Prop :=
  exists b, nth_error bins i = Some b /\ In c b.
(** clean training categories *)
Definition trained (sp : special) (xs : list xval) (c : Z) : Prop :=
  In (XNum c) xs /\ ~ In (XNum c) (flat_codes sp).
