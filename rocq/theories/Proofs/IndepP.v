(** Independence of a table with two columns, and chi2_contingency of two-by-two tables. *)
From Coq Require Import List ZArith Bool Arith Lia Reals Lra.
From Verif Require Import Model.Arr Model.Core Model.Multi Model.Metrics Model.MultiT Model.MultiTable Spec.MetricsSpec Spec.MultiTableSpec Proofs.ArrP Proofs.MetricsP Proofs.MultiTableP Proofs.MultiTableQ Proofs.MultiTableR.
Import ListNotations.
Open Scope nat_scope.

(** Two columns are independent when all rows have the same ratio. *)
Lemma zsum_cross (n1 n2 : Z) : forall l1 l2, length l1 = length l2 -> (forall k, k < length l1 -> (n1 * nth k l2 0 = nth k l1 0 * n2)%Z) -> (n1 * zsum l2 = zsum l1 * n2)%Z.
Proof.
  induction l1 as [|a l1 IH]; intros [|b l2] L H; try discriminate; cbn [zsum]; [ring|].
  pose proof (H 0 ltac:(cbn; lia)) as H0. cbn [nth] in H0. specialize (IH l2 ltac:(now injection L)). rewrite Z.mul_add_distr_l, Z.mul_add_distr_r, H0, IH; [reflexivity|]. intros k Hk. exact (H (S k) ltac:(cbn; lia)).
Qed.
Lemma independent_cross rows nev ev : table_ok rows [nev; ev] ->
  (independent rows [nev; ev] <-> forall a b, a < rows -> b < rows -> (nth a ev 0 * nth b nev 0 = nth b ev 0 * nth a nev 0)%Z).
Proof.
  intros [_ H]. destruct (H nev (or_introl eq_refl)) as (L1 & _ & P1). destruct (H ev (or_intror (or_introl eq_refl))) as (L2 & _ & P2).
  unfold independent, row_sum, grand, at_row. cbn [map zsum]. split.
  - intros I. assert (G : forall k, k < rows -> (nth k nev 0 * zsum ev = nth k ev 0 * zsum nev)%Z).
    { intros k Hk. pose proof (I k nev Hk (or_introl eq_refl)) as E. rewrite <- !mult_IZR in E. apply eq_IZR in E. lia. }
    intros a b Ha Hb. pose proof (G a Ha) as Ga. pose proof (G b Hb) as Gb.
    apply (Z.mul_reg_r _ _ (zsum ev * zsum nev)%Z); [nia|].
    transitivity ((nth a ev 0 * zsum nev) * (nth b nev 0 * zsum ev))%Z; [ring|]. rewrite Gb, <- Ga. ring.
  - intros X k col Hk Hc. assert (G : (nth k ev 0 * zsum nev = zsum ev * nth k nev 0)%Z).
    { apply zsum_cross; [congruence|]. intros b Hb. apply X; [exact Hk|congruence]. }
    rewrite <- !mult_IZR. f_equal. destruct Hc as [<-|[<-|[]]]; nia.
Qed.


(** a two-by-two table with counts a b / c d *)
Lemma chi2_two a b c d : (0 <= a)%Z -> (0 <= b)%Z -> (0 <= c)%Z -> (0 <= d)%Z ->
  (0 < a + c /\ 0 < b + d /\ 0 < a + b /\ 0 < c + d)%Z ->
  exists t, chi2_contingency [[a; b]; [c; d]] = Ok t /\ (0 <= t)%R /\ (t = 0%R <-> (c * b = d * a)%Z).
Proof.
  intros A B C D (P1 & P2 & P3 & P4).
  assert (Hok : table_ok 2 [[a; b]; [c; d]]).
  { split; [discriminate|]. intros col [<-|[<-|[]]]; (split; [reflexivity|]; split; [intros v [<-|[<-|[]]]; lia|cbn [zsum]; lia]). }
  assert (Hr : forall k, k < 2 -> (0 < row_sum [[a; b]; [c; d]] k)%R).
  { intros [|[|k]] Hk; [| |lia]; unfold row_sum, at_row; cbn [map nth zsum]; apply (IZR_lt 0); lia. }
  exists (pearson 2 [[a; b]; [c; d]]). split; [apply (chi2_value 2); [exact Hok|exact Hr|lia]|].
  destruct (pearson_facts 2 _ Hok Hr ltac:(lia)) as (F1 & F2 & _). split; [exact F1|]. rewrite F2, (independent_cross 2 _ _ Hok). split.
  - intros X. exact (X 0 1 ltac:(lia) ltac:(lia)).
  - intros X [|[|k]] [|[|j]] Hk Hj; cbn [nth]; try lia.
Qed.
Lemma chi2_two_err a b c d : (0 <= a)%Z -> (0 <= b)%Z -> (0 <= c)%Z -> (0 <= d)%Z ->
  ~ (0 < a + c /\ 0 < b + d /\ 0 < a + b /\ 0 < c + d)%Z -> chi2_contingency [[a; b]; [c; d]] = Err ValueError.
Proof.
  intros A B C D N. unfold chi2_contingency.
  assert (E : existsb (fun k => Z.eqb (mt_row [[a; b]; [c; d]] k) 0) (seq 0 (mt_rows [[a; b]; [c; d]])) || existsb (fun j => Z.eqb (zsum (nth j [[a; b]; [c; d]] [])) 0) (seq 0 (length [[a; b]; [c; d]])) = true).
  { cbn [mt_rows length seq existsb nth zsum]. unfold mt_row. cbn [length seq map existsb nth zsum].
    repeat match goal with |- context [Z.eqb ?x ?y] => destruct (Z.eqb_spec x y) end; cbn [orb]; try reflexivity. exfalso. apply N. lia. }
  rewrite E. reflexivity.
Qed.
