(** C62: sample and class weights. *)
From Coq Require Import List ZArith Lia Bool Arith.
From Verif Require Import Model.Arr Model.Core Model.Weights Spec.CoreSpec Spec.WeightSpec Proofs.ArrP Proofs.CoreP Proofs.FitP Proofs.CoreFinal Proofs.WeightP.
Import ListNotations.
Open Scope Z_scope.

(** Every count of the table is the weight of the training records that transform sends to that row, except that the fraction of
    a unit is dropped in every pre-bin (at most 1 + number of pre-binning splits of them).  Missing: equality, which holds for
    whole weights only (see the refutation below). *)
Theorem C62_weighted_counts_partial : forall own cw wu d solver sp splits0 xs ys sw f out,
  0 < wu -> cw_ok cw -> (forall w, In w sw -> 0 <= w) ->
  length xs = length ys -> length xs = length sw ->
  ~ In YNaN ys -> ~ In XNaN (flat_codes sp) -> sp_disjoint sp -> nondecreasing splits0 -> solver_ok solver ->
  fit_weighted own cw wu d solver sp splits0 xs ys sw = (Some (Ok f), out) ->
  let n_rows := (S (length (f_splits f)) + n_special sp + 1)%nat in
  let n_prebins := Z.of_nat (S (length splits0)) in let u := weight_unit cw wu in
  let weight_to := fun nonevent k => weight_of (fun r => Bool.eqb (y_is0 (row_y r)) nonevent &&
       match transform_indices (f_splits f) sp Empirical Empirical (row_x r) with
       | Ok z => Z.eqb z (Z.of_nat k) | Err _ => false end) (weighted_rows cw xs ys sw) in
  length (f_nev f) = n_rows /\ length (f_ev f) = n_rows /\
  forall k, (k < n_rows)%nat -> exists c0 c1, nth_error (f_nev f) k = Some c0 /\ nth_error (f_ev f) k = Some c1 /\
    loses_less_than n_prebins u c0 (weight_to true k) /\
    loses_less_than n_prebins u c1 (weight_to false k) /\
    (u = 1 -> c0 = weight_to true k /\
              c1 = weight_to false k).
Proof.
  intros own cw wu d solver sp splits0 xs ys sw f out Hu Hcw Hw H1 H2 Hy Hc Hd Hnd Hsol Hf n_rows np u weight_to.
  assert (E : exists e, fit_numerical u d solver sp None None splits0 xs ys e = Some (Ok f) /\ length xs = length e /\ (forall w, In w e -> 0 <= w) /\
    weighted_rows cw xs ys sw = rows xs ys e).
  { destruct cw as [c|]; cbn [fit_weighted weight_unit] in *.
    - injection Hf as Hf _. destruct Hcw as (A & B & C). exists (times_class c ys sw). split; [exact Hf|].
      split; [rewrite times_class_length; lia|]. split; [now apply times_class_nonneg|]. unfold weighted_rows, rows, times_class. clear - H1 H2 Hy.
      revert ys sw H1 H2 Hy. induction xs as [|x xs IH]; intros [|y ys] [|s sw] H1 H2 Hy; cbn in H1, H2; try discriminate; [reflexivity|].
      cbn [combine map map2]. f_equal; [unfold cw_of, row_x, row_y, row_w; cbn; destruct y; [exfalso; apply Hy; now left|reflexivity|reflexivity]|].
      apply IH; try lia. intros K. apply Hy. now right.
    - injection Hf as Hf _. exists sw. split; [exact Hf|]. split; [exact H2|]. split; [exact Hw|]. unfold weighted_rows.
      rewrite <- (map_id (rows xs ys sw)) at 2. apply map_ext. intros [[x y] s]. reflexivity. }
  assert (Hu' : 0 < u). { unfold u, weight_unit. destruct cw as [c|]; [destruct Hcw; nia|exact Hu]. }
  destruct E as (e & Ef & He & Hpos & Er). unfold weight_to. rewrite Er. clear weight_to Er.
  destruct (fit_near u d solver sp None None splits0 xs ys e f) as (L1 & L2 & N); auto.
  split; [exact L1|]. split; [exact L2|]. intros k Hk. destruct (N k Hk) as (c0 & c1 & N0 & N1 & W0 & W1). exists c0, c1.
  split; [exact N0|]. split; [exact N1|]. split; [exact W0|]. split; [exact W1|]. intros E1. rewrite E1 in W0, W1. unfold near in W0, W1. cbn beta. unfold goes_to, cls_b in W0, W1. lia.
Qed.
Print Assumptions C62_weighted_counts_partial.

Definition w_solver_all (n _ : list Z) : list bool := repeat true (length n).
Definition w_solver_one (n _ : list Z) : list bool := repeat false (length n - 1) ++ [true].
Lemma w_one_ok : solver_ok w_solver_one.
Proof.
  intros a b Hl Hn. unfold w_solver_one. rewrite app_length, repeat_length. cbn. split; [lia|]. rewrite last_last. reflexivity.
Qed.
(** Whole class weights 1 and 3 on records of weight 1 and 2. *)
Example C62_hyps_met : cw_ok (Some {| cw_unit := 1; cw0 := 1; cw1 := 3 |}) /\ exists f,
  fit_weighted true (Some {| cw_unit := 1; cw0 := 1; cw1 := 3 |}) 1 IV w_solver_one (SpList [XNum (-9)]) [4]
    [XNum 1; XNum 2; XNum 5; XNum 6; XNum (-9); XNaN] [Y0; Y1; Y1; Y0; Y1; Y0] [1; 2; 1; 1; 2; 1]
  = (Some (Ok f), (1, [1; 6; 3; 1; 6; 1])) /\ f_splits f = [] /\ f_nev f = [2; 0; 1] /\ f_ev f = [9; 6; 0].
Proof. split; [cbn; lia|]. eexists. split; [vm_compute; reflexivity|]. vm_compute. auto. Qed.

(** Two pre-bins with 3/2 of weight in each class are merged into one bin, which shows 2 instead of 3. *)
Theorem C62_fractional_refuted : exists wu d solver sp splits0 xs ys sw f,
  0 < wu /\ (forall w, In w sw -> 0 <= w) /\ solver_ok solver /\
  fit_numerical wu d solver sp None None splits0 xs ys sw = Some (Ok f) /\
  weight_of (goes_to (f_splits f) sp true 0) (rows xs ys sw) = 3 * wu /\ nth_error (f_nev f) 0 = Some 2.
Proof.
  exists 2, IV, w_solver_one, SpNone, [4], [XNum 1; XNum 2; XNum 5; XNum 6], [Y0; Y1; Y1; Y0], [3; 3; 3; 3]. eexists.
  split; [lia|]. split; [intros w [<-|[<-|[<-|[<-|[]]]]]; lia|]. split; [exact w_one_ok|]. split; [vm_compute; reflexivity|]. vm_compute. auto.
Qed.
Print Assumptions C62_fractional_refuted.

(** Dividing all weights by 10 does not only divide the counts: it loses the bins. *)
Theorem C62_scale_refuted : exists d solver sp splits0 xs ys sw f1 f10,
  (forall w, In w sw -> 0 < w) /\
  fit_numerical 1 d solver sp None None splits0 xs ys sw = Some (Ok f1) /\
  fit_numerical 10 d solver sp None None splits0 xs ys sw = Some (Ok f10) /\
  f_splits f1 = [4] /\ f_splits f10 = [].
Proof.
  exists IV, w_solver_all, SpNone, [4], [XNum 1; XNum 2; XNum 5; XNum 6], [Y0; Y1; Y1; Y0], [5; 5; 5; 5]. eexists. eexists.
  split; [intros w [<-|[<-|[<-|[<-|[]]]]]; lia|]. split; [vm_compute; reflexivity|]. split; [vm_compute; reflexivity|]. vm_compute. auto.
Qed.
Print Assumptions C62_scale_refuted.

(** class_weight="balanced" without sample_weight: both classes weigh half the number of records. *)
Theorem C62_balanced_totals : forall ys, ~ In YNaN ys -> In Y0 ys -> In Y1 ys ->
  let b := balanced ys in let e := times_class b ys (given_weights (length ys) None) in
  0 < cw_unit b /\ 0 < cw0 b /\ 0 < cw1 b /\
  2 * class_total Y0 ys e = Z.of_nat (length ys) * cw_unit b /\ 2 * class_total Y1 ys e = Z.of_nat (length ys) * cw_unit b.
Proof.
  intros ys Hn H0 H1 b e.
  assert (G : forall c l, ~ In YNaN l -> let w := times_class c l (given_weights (length l) None) in
    class_total Y0 l w = Z.of_nat (count_true (map y_is0 l)) * cw0 c /\
    class_total Y1 l w = (Z.of_nat (length l) - Z.of_nat (count_true (map y_is0 l))) * cw1 c).
  { intros c. induction l as [|y l IH]; intros Hl; [cbn; lia|]. destruct IH as [I0 I1]; [intros K; apply Hl; now right|].
    cbn [given_weights length repeat times_class map2 class_total map]. unfold times_class in I0, I1. cbn [given_weights] in I0, I1. rewrite I0, I1.
    destruct y; [exfalso; apply Hl; now left| |]; cbn [y_is0 cw_of count_true length]; unfold cw_of; cbn [y_is0]; lia. }
  destruct (G b ys Hn) as [G0 G1]. fold e in G0, G1. rewrite G0, G1. unfold b, balanced. cbn [cw_unit cw0 cw1].
  set (n := Z.of_nat (length ys)). set (n0 := Z.of_nat (count_true (map y_is0 ys))).
  assert (P0 : 0 < n0). { unfold n0. clear - H0. induction ys as [|y l IH]; [contradiction|]. destruct H0 as [->|H0]; cbn; [lia|]. specialize (IH H0). destruct (y_is0 y); cbn; lia. }
  assert (P1 : n0 < n). { unfold n0, n. clear - H1. 
    assert (L : forall l, (count_true (map y_is0 l) <= length l)%nat) by (induction l as [|y l IH]; cbn; [lia|]; destruct (y_is0 y); cbn; lia).
    induction ys as [|y l IH]; [contradiction|]. destruct H1 as [->|H1]; [cbn; specialize (L l); lia|]. specialize (IH H1); cbn. destruct (y_is0 y); cbn; lia. }
  assert (0 < n) by lia. repeat split; nia.
Qed.
Print Assumptions C62_balanced_totals.
Example C62_balanced_hyps_met : times_class (balanced [Y0; Y1; Y1; Y1]) [Y0; Y1; Y1; Y1] [1; 1; 1; 1] = [12; 4; 4; 4] /\ cw_unit (balanced [Y0; Y1; Y1; Y1]) = 6.
Proof. vm_compute. auto. Qed.

(** The caller's weights are unchanged if class_weight is not given, or the weights are not an array fit can use directly. *)
Theorem C62_inputs_unchanged_partial : forall own cw wu d solver sp splits0 xs ys sw r out,
  fit_weighted own cw wu d solver sp splits0 xs ys sw = (r, out) -> cw = None \/ own = false -> out = (wu, sw).
Proof.
  intros own cw wu d solver sp splits0 xs ys sw r out H [-> | ->]; [|destruct cw as [c|]]; unfold fit_weighted in H; inversion H; reflexivity.
Qed.
Print Assumptions C62_inputs_unchanged_partial.

(** Otherwise fit multiplies the caller's array by the class weights, and fitting again on the same variables gives another table. *)
Theorem C62_inputs_modified_refuted : exists c xs ys sw u' sw' f f',
  fit_weighted true (Some c) 1 IV w_solver_all SpNone [4] xs ys sw = (Some (Ok f), (u', sw')) /\ u' = 1 /\ sw' <> sw /\
  (exists out, fit_weighted true (Some c) u' IV w_solver_all SpNone [4] xs ys sw' = (Some (Ok f'), out)) /\ f_ev f = [3; 3; 0; 0] /\ f_ev f' = [9; 9; 0; 0].
Proof.
  exists {| cw_unit := 1; cw0 := 1; cw1 := 3 |}, [XNum 1; XNum 2; XNum 5; XNum 6], [Y0; Y1; Y1; Y0], [1; 1; 1; 1]. eexists. eexists. eexists. eexists.
  split; [vm_compute; reflexivity|]. split; [reflexivity|]. split; [intros K; discriminate|]. split; [eexists; vm_compute; reflexivity|]. vm_compute. auto.
Qed.
Print Assumptions C62_inputs_modified_refuted.
