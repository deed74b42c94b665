(** Vocabulary for histories of calls on an OptimalBinning object. *)
From Coq Require Import List ZArith Bool.
From Verif Require Import Model.Arr Model.Core Model.Lifecycle Spec.CoreSpec.
Import ListNotations.
Open Scope Z_scope.

(** Some call of the given kind returned normally in the history [h] with outcomes [outs]. *)
Definition succeeded (P : op -> Prop) (h : list op) (outs : list (res value)) : Prop :=
  exists i c v, nth_error h i = Some c /\ P c /\ nth_error outs i = Some (Ok v).
Definition called (P : op -> Prop) (h : list op) : Prop := exists c, In c h /\ P c.

Definition is_fit (c : op) : Prop := exists d, c = Fit d.
Definition is_read (c : op) : Prop := exists p, c = ReadJson p.
Definition is_build (c : op) : Prop := exists v, c = Build v.
Definition is_analysis (c : op) : Prop := exists v, c = Analysis v.

(** Methods and properties documented to require a fitted object and nothing else. *)
Definition needs_fit (c : op) : Prop :=
  match c with
  | Transform _ _ | Splits | Status | Table | Information | ToJson _ | Build _ => True
  | _ => False
  end.
(** Table methods that also require build() / analysis(). *)
Definition needs_build (c : op) : Prop :=
  match c with Plot _ | Analysis _ | Statistic => True | _ => False end.
Definition needs_analysis (c : op) : Prop := c = QualityScore.

(** Calls that report results of the fit. *)
Definition query (c : op) : Prop :=
  match c with
  | Transform _ _ | Splits | Status | Table | Build _ | Plot _ | Analysis _ | Statistic | QualityScore => True
  | _ => False
  end.
(** the calls [c] answers the same on both objects *)
Definition same_answers (e : env) (o1 o2 : obj) : Prop :=
  forall fs c, query c -> snd (step e (o1, fs) c) = snd (step e (o2, fs) c).

(** A record that is neither missing nor special. *)
Definition clean_record (sp : special) (x : xval) (y : yval) : Prop :=
  (exists z, x = XNum z) /\ ~ In x (flat_codes sp) /\ y <> YNaN.
Definition has_clean (e : env) (d : data) : Prop :=
  exists i x y w, nth_error (d_x d) i = Some x /\ nth_error (d_y d) i = Some y /\ nth_error (d_w d) i = Some w /\
    clean_record (e_special e) x y.

(** What post-processing assumes of the optimiser when it answers (C07_solution_vector_shape). *)
Definition answers_fit (e : env) : Prop :=
  forall f b n nev ev st sol, e_solver e f b n nev ev = Ok (st, sol) ->
    length sol = length nev /\ last sol false = true.
(** Asking for at least one event and one non-event per bin changes nothing when every prebin has both. *)
Definition min_one_neutral (e : env) : Prop :=
  refines (e_div e) = true \/
  forall f n nev ev, ~ In 0 nev -> ~ In 0 ev -> e_solver e f true n nev ev = e_solver e f false n nev ev.

(** The same table contents (containers and the built/analyzed flags aside). *)
Definition same_contents (a b : table) : Prop :=
  t_special a = t_special b /\ t_splits a = t_splits b /\ t_nev a = t_nev b /\ t_ev a = t_ev b /\
  t_min a = t_min b /\ t_max a = t_max b /\ option_map snd (t_user a) = option_map snd (t_user b).

(** A pre-binning method that returns its split points in order. *)
Definition prebin_sorted (e : env) : Prop := forall cs s, e_prebin e cs = Ok s -> nondecreasing s.
(** An optimal answer merges no prebin that ends at a fixed split point (C06_fixed_splits_in_result proves this of
    the constraints handed to the solver). *)
Definition keeps_fixed (e : env) : Prop :=
  forall f b n nev ev st sol, (length f < length nev)%nat ->
    e_solver e (Some f) b n nev ev = Ok (st, sol) -> st = 0 ->
    forall i, nth_error f i = Some true -> nth_error sol i = Some true.
