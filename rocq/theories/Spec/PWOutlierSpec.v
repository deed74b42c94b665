(** Vocabulary for C92. *)
From Coq Require Import List ZArith QArith Bool.
From Verif Require Import Model.Arr Model.Core Model.Outlier Model.PWLife Model.PWOutlier Spec.CoreSpec Spec.OutlierSpec.
Import ListNotations.
Open Scope Z_scope.

(** the clean records of the data: value and target both there, value not special *)
Definition clean_records (sp : special) (d : pdata) : list (Z * Z) :=
  flat_map (fun r => match r with
                     | (XNum x, Some y) => if existsb (fun c => match c with XNum z => z =? x | XNaN => false end) (flat_codes sp) then [] else [(x, y)]
                     | _ => []
                     end) (pd_recs d).
(** the flag [b] of the record (x, y) among [l] is right *)
Definition outlier_flag (dt : detector) (l : list (Z * Z)) (x y : Z) (b : bool) : Prop :=
  match dt with
  | OneArray d => flag_right d (map fst l) x b
  | YQuantile d nb => exists splits, quantile_splits (Z.to_nat nb) (map fst l) splits /\
      flag_right d (map snd (filter (fun p => same_bin splits x (fst p)) l)) y b
  end.
(** [l'] is [l] without its outliers *)
Definition without_outliers (dt : detector) (l l' : list (Z * Z)) : Prop :=
  exists m, length m = length l /\ l' = map snd (filter (fun br => negb (fst br)) (combine m l)) /\
    forall i x y, nth_error l i = Some (x, y) -> exists b, nth_error m i = Some b /\ outlier_flag dt l x y b.
Definition bins_records (k : pwkind) (t : pwout) : Z := zsum (map (row_records k) (on_rows t)).
(** the two counts of a bin *)
Definition row_counts (k : pwkind) (b : list (Z * Z)) (r : Z * Z) : Prop :=
  match k with
  | PWBinary => fst r = Z.of_nat (length (filter (fun p => snd p =? 0) b)) /\ snd r = Z.of_nat (length (filter (fun p => negb (snd p =? 0)) b))
  | PWContinuous => fst r = Z.of_nat (length b) /\ snd r = zsum (map snd b)
  end.
