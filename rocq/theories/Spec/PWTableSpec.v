(** Vocabulary for the tables of the piecewise binning objects. *)
From Coq Require Import List ZArith Reals Bool.
From Verif Require Import Model.Arr Model.Core Model.Cont Model.PWLife Model.PWTable Spec.PWLifeSpec.
Import ListNotations.
Open Scope Z_scope.

(** A table's rows: one per bin, then the special rows (one, or one per key of a dict), then Missing. *)
Definition special_row_count (sp : special) : nat := match sp with SpDict d => length d | _ => 1%nat end.
Definition laid_out {A} (sp : special) (splits : list Z) (rows bins specials : list A) (missing : A) : Prop :=
  rows = bins ++ specials ++ [missing] /\ length bins = S (length splits) /\ length specials = special_row_count sp.
(** One polynomial per bin, all with the same number of coefficients. *)
Definition coef_of (splits : list Z) (coef : list (list R)) (m : nat) : Prop :=
  length coef = S (length splits) /\ (forall c, In c coef -> length c = m).

(** A pair is (Non-event, Event). *)
Definition has_both (r : Z * Z) : Prop := 0 < fst r /\ 0 < snd r.
Definition counts_ok2 (rows : list (Z * Z)) : Prop := forall r, In r rows -> 0 <= fst r /\ 0 <= snd r.
(** Event share of a row with both classes, 0 for any other row. *)
Definition shown_rate (r : Z * Z) (v : R) : Prop :=
  (has_both r -> v = (IZR (snd r) / (IZR (fst r) + IZR (snd r)))%R) /\ (~ has_both r -> v = 0%R).
(** Mean of a row with records whose sum is a number, 0 for a row without records. *)
Definition shown_mean (r : trow) (v : option R) : Prop :=
  (0 < r_n r -> forall s, r_sum r = Some s -> v = Some (IZR s / IZR (r_n r))%R) /\
  (0 < r_n r -> r_sum r = None -> v = None) /\ (r_n r <= 0 -> v = Some 0%R).

(** The tests are those of the neighbouring rows of [rows], in order, and no others. *)
Definition tests_of {A B} (test : A -> A -> B) (rows : list A) (pv : list B) : Prop :=
  length pv = (length rows - 1)%nat /\
  forall i a b, nth_error rows i = Some a -> nth_error rows (S i) = Some b -> nth_error pv i = Some (test a b).

(** Calls of a history that returned normally. *)
Definition t_succeeded (P : tabop -> Prop) (h : list tabop) (outs : list (res tabval)) : Prop :=
  exists i c v, nth_error h i = Some c /\ P c /\ nth_error outs i = Some (Ok v).
Definition t_is_build (c : tabop) : Prop := exists a b d, c = TBuild a b d.
Definition t_is_analysis (c : tabop) : Prop := exists v, c = TAnalysis v.
Definition is_binary (t : pwtable) : Prop := exists l, pt_rows t = BRows l.
Definition is_continuous (t : pwtable) : Prop := exists l, pt_rows t = CRows l.

(** What the inner binning answers: one row per bin, counts >= 0 that count each of its records once. *)
Definition inner_counts (e : pwenv) : Prop :=
  forall d i, pe_inner e d = Ok i ->
    match in_rows i with
    | BRows l => length l = S (length (in_splits i)) /\ (forall r, In r l -> 0 <= fst r /\ 0 <= snd r) /\
                 zsum (map fst l) = Z.of_nat (length (filter (fun xy => snd xy =? 0) d)) /\
                 zsum (map snd l) = Z.of_nat (length (filter (fun xy => negb (snd xy =? 0)) d))
    | CRows l => length l = S (length (in_splits i)) /\ (forall r, In r l -> 0 <= r_n r) /\ zsum (map r_n l) = Z.of_nat (length d)
    end.
(** Every record has a target and belongs to one row: NaN is not a special code, no code is listed under two keys of the dict. *)
Definition one_row_each (sp : special) (d : pdata) : Prop :=
  forall r, In r (pd_recs d) -> snd r <> None /\ (forall j, in_special_row sp j r = true -> x_isnull (fst r) = false) /\
    forall j k, in_special_row sp j r = true -> in_special_row sp k r = true -> j = k.
