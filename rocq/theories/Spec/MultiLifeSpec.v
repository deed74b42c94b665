(** Vocabulary for histories of calls on a MulticlassOptimalBinning object. *)
From Coq Require Import List ZArith Bool.
From Verif Require Import Model.Arr Model.Core Model.Multi Model.Lifecycle Model.MultiLife Spec.CoreSpec.
Import ListNotations.
Open Scope Z_scope.

(** Some call of the given kind returned normally in the history [h] with outcomes [outs]. *)
Definition mc_succeeded (P : mop -> Prop) (h : list mop) (outs : list (res mvalue)) : Prop :=
  exists i c v, nth_error h i = Some c /\ P c /\ nth_error outs i = Some (Ok v).
Definition mc_called (P : mop -> Prop) (h : list mop) : Prop := exists c, In c h /\ P c.
Definition mc_is_fit (c : mop) : Prop := exists rs, c = MFit rs.
Definition mc_is_read (c : mop) : Prop := exists p, c = MReadJson p.

(** Methods and properties documented to require a fitted object. *)
Definition mc_needs_fit (c : mop) : Prop :=
  match c with
  | MTransform _ _ _ _ | MSplits | MStatus | MClasses | MTable | MInformation | MToJson _ => True
  | _ => False
  end.
(** Calls that report results of the fit, [classes] aside. *)
Definition mc_query (c : mop) : Prop :=
  match c with MTransform _ _ _ _ | MSplits | MStatus | MTable => True | _ => False end.

(** A record with a value and a label, whose value is not a special code. *)
Definition mc_clean_record (e : menv) (r : mrec) : Prop :=
  exists z y, m_x r = XNum z /\ m_y r = Some y /\ ~ In (XNum z) (flat_codes (me_special e)).
Definition mc_has_clean (e : menv) (rs : list mrec) : Prop := exists r, In r rs /\ mc_clean_record e r.
(** The labels of the clean records, in increasing order. *)
Definition mc_labels (e : menv) (rs : list mrec) (l : list Z) : Prop :=
  increasing l /\ forall cl, In cl l <-> exists r, In r rs /\ mc_clean_record e r /\ m_y r = Some cl.

(** What post-processing assumes of the optimiser when it answers: one entry per prebin, the last one set. *)
Definition mc_answers_fit (e : menv) : Prop :=
  forall f m cols status sol n, me_solver e f m cols = Ok (status, sol) -> (2 <= n)%nat -> cols <> [] ->
    (forall c, In c cols -> length (fst c) = n /\ length (snd c) = n) -> length sol = n /\ last sol false = true.
Definition mc_prebin_sorted (e : menv) : Prop := forall l s, me_prebin e l = Ok s -> nondecreasing s.

Definition mc_same_contents (a b : mtable) : Prop :=
  mt_special a = mt_special b /\ mt_splits a = mt_splits b /\ mt_cols a = mt_cols b /\ mt_classes a = mt_classes b.
