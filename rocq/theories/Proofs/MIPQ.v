From Coq Require Import List ZArith Bool Arith Reals Lra Lia QArith Qreals.
From Verif Require Import Model.Arr Model.Core Model.Metrics Model.CP Model.MIP Spec.CPSpec Spec.CPFitSpec Spec.MIPSpec
  Proofs.MetricsP Proofs.MetricsQ Proofs.CPP Proofs.CPC Proofs.CPTable Proofs.CPFinal Proofs.MIPP.
Import ListNotations.
Open Scope Z_scope.

(** *** one inequality per violation says the same as the implication *)
Definition viol_range (n : nat) (v : viol) : Prop :=
  let '((i, j), (z, l)) := v in (i < n)%nat /\ (j <= i)%nat /\ (z < n)%nat /\ (1 <= l)%nat /\ (l <= z)%nat.
Lemma viol_bridge n v X : bool_vars n X -> viol_range n v -> violation_constr v X <-> violation_ineq v X.
Proof.
  intros HB. destruct v as [[i j] [z l]]. intros (H1 & H2 & H3 & H4 & H5). cbn [violation_constr violation_ineq].
  pose proof (HB i j H1 H2) as A. pose proof (HB z l H3 H5) as B. pose proof (HB z (l - 1)%nat H3 ltac:(lia)) as C.
  destruct j as [|j'].
  - split; [intros H; destruct C as [C|C]; [|lia]; destruct A as [A|A]; [lia|]; specialize (H C A); lia|].
    intros H E1 E2. lia.
  - pose proof (HB i j' H1 ltac:(lia)) as D. split.
    + intros H. destruct C as [C|C]; [|lia]. destruct D as [D|D]; [|lia]. destruct A as [A|A]; [lia|]. specialize (H D C A). lia.
    + intros H E1 E2 E3. lia.
Qed.
Lemma viols_bridge n vs X : bool_vars n X -> (forall v, In v vs -> viol_range n v) -> violation_constrs vs X <-> violation_ineqs vs X.
Proof. intros HB HR. split; intros H v Hv; specialize (H v Hv); now apply (viol_bridge n v X HB (HR v Hv)). Qed.
Lemma consecutive_range n bad v : In v (viol_consecutive n bad) -> viol_range n v.
Proof. destruct v as [[i r] [j k]]. intros H. apply (viol_consecutive_in 1 Nat.lt_0_1) in H. cbn. lia. Qed.
Lemma all_range n bad v : In v (viol_all n bad) -> viol_range n v.
Proof. destruct v as [[i r] [j k]]. intros H. apply (viol_all_in 1 Nat.lt_0_1) in H. cbn. lia. Qed.
Lemma pviol_range p test ne ev v : In v (pviol_of p test ne ev) -> viol_range (length ne) v.
Proof. destruct p; cbn [pviol_of]; [intros []|apply all_range|apply consecutive_range]. Qed.
Lemma dviol_range md ne ev v : In v (dviol_ofR md ne ev) -> viol_range (length ne) v.
Proof. unfold dviol_ofR. destruct (Rlt_dec 0 md); [apply consecutive_range|intros []]. Qed.

(** *** a scale that makes every candidate rate an integer *)
Definition zprod (l : list Z) : Z := fold_right Z.mul 1 l.
Definition totals (ne ev : list Z) : list Z :=
  flat_map (fun i => map (fun j => cum_mat ne i j + cum_mat ev i j) (seq 0 (S i))) (seq 0 (length ne)).
Definition scale_of (ne ev : list Z) : Z := zprod (totals ne ev).
Lemma zprod_pos l : (forall a, In a l -> 0 < a) -> 0 < zprod l.
Proof. induction l as [|a l IH]; intros H; cbn; [lia|]. apply Z.mul_pos_pos; [apply H; now left|apply IH; intros; apply H; now right]. Qed.
Lemma zprod_div l a : In a l -> (a | zprod l).
Proof.
  induction l as [|b l IH]; [intros []|]. intros [<-|H]; unfold zprod; cbn [fold_right]; fold (zprod l); [exists (zprod l); ring|].
  destruct (IH H) as [q ->]. exists (b * q). ring.
Qed.
Lemma totals_in ne ev i j : (i < length ne)%nat -> (j <= i)%nat -> In (cum_mat ne i j + cum_mat ev i j) (totals ne ev).
Proof. intros Hi Hj. unfold totals. apply in_flat_map. exists i. split; [apply in_seq; lia|]. apply in_map_iff. exists j. split; [reflexivity|apply in_seq; lia]. Qed.
Section Scale.
Variables ne ev : list Z.
Hypothesis Hl : length ne = length ev.
Hypothesis Pn : pos_list ne.
Hypothesis Pe : pos_list ev.
Lemma total_pos i j : (i < length ne)%nat -> (j <= i)%nat -> 0 < cum_mat ne i j + cum_mat ev i j.
Proof.
  intros Hi Hj. assert (P : forall l, pos_list l -> (i < length l)%nat -> 0 < cum_mat l i j).
  { intros l Hp Hi'. rewrite cum_mat_gsum by assumption. unfold gsum, slice. cbn [fst snd].
    assert (E : zsum (firstn (S i - j) (skipn j l)) > 0 \/ firstn (S i - j) (skipn j l) = []).
    { assert (Q : forall m, (forall a, In a m -> 0 < a) -> zsum m > 0 \/ m = []).
      { induction m as [|b m IH]; intros H; [now right|left]. cbn [zsum]. specialize (H b (or_introl eq_refl)) as Hb.
        assert (H' : forall a, In a m -> 0 < a) by (intros; apply H; now right).
        destruct (IH H') as [I1|I1]; [|subst m; cbn [zsum]]; lia. }
      apply Q. intros a Ha. apply Hp. assert (Hs : In a (skipn j l)) by (rewrite <- (firstn_skipn (S i - j) (skipn j l)); apply in_or_app; now left).
      rewrite <- (firstn_skipn j l). apply in_or_app. now right. }
    destruct E as [E|E]; [lia|]. apply (f_equal (@length Z)) in E. rewrite firstn_length, skipn_length in E. cbn [length] in E. lia. }
  pose proof (P ne Pn Hi). pose proof (P ev Pe ltac:(lia)). lia.
Qed.
Lemma scale_pos : 0 < scale_of ne ev.
Proof.
  apply zprod_pos. intros a Ha. unfold totals in Ha. apply in_flat_map in Ha. destruct Ha as (i & Hi & Ha).
  apply in_map_iff in Ha. destruct Ha as (j & <- & Hj). apply in_seq in Hi, Hj. apply total_pos; lia.
Qed.
Lemma scale_exact i j : (i < length ne)%nat -> (j <= i)%nat ->
  IZR (rate_mat (scale_of ne ev) ne ev i j) = (IZR (scale_of ne ev) * rate_matR ne ev i j)%R.
Proof.
  intros Hi Hj. unfold rate_mat, rate_matR. pose proof (total_pos i j Hi Hj) as Ht.
  destruct (zprod_div _ _ (totals_in ne ev i j Hi Hj)) as [q Hq]. fold (scale_of ne ev) in Hq. rewrite Hq.
  replace (q * (cum_mat ne i j + cum_mat ev i j) * cum_mat ev i j) with ((q * cum_mat ev i j) * (cum_mat ne i j + cum_mat ev i j)) by ring.
  rewrite Z.div_mul by lia. rewrite !mult_IZR. assert (IZR (cum_mat ne i j + cum_mat ev i j) <> 0)%R by (apply not_0_IZR; lia). field. assumption.
Qed.
Variable gs : list group.
Hypothesis Hp : partition (length ne) gs.
Lemma rate_exact a : In a gs -> (rate (gsum ne a, gsum ev a) == inject_Z (at_group (rate_mat (scale_of ne ev) ne ev) a) / inject_Z (scale_of ne ev))%Q.
Proof.
  intros Ha. destruct a as [s e]. pose proof (chain_in _ _ _ _ _ Hp Ha) as Hb. unfold rate, at_group, rate_mat. cbn [fst snd].
  destruct (zprod_div _ _ (totals_in ne ev e s ltac:(lia) ltac:(lia))) as [q Hq]. fold (scale_of ne ev) in Hq. pose proof scale_pos as HM.
  pose proof (total_pos e s ltac:(lia) ltac:(lia)) as Ht. rewrite !cum_mat_gsum in * by lia. rewrite Hq in *.
  set (t := gsum ne (s, e) + gsum ev (s, e)) in *. set (v := gsum ev (s, e)) in *.
  replace (q * t * v) with ((q * v) * t) by ring. rewrite Z.div_mul by lia. rewrite !inject_Z_mult. field.
  split; intros E; [apply (inject_Z_injective t 0) in E|apply (inject_Z_injective q 0) in E]; nia.
Qed.
Lemma scale_Qpos : (0 < inject_Z (scale_of ne ev))%Q.
Proof. unfold Qlt. cbn. pose proof scale_pos. lia. Qed.
Lemma div_scale_le x y : x <= y -> (inject_Z x / inject_Z (scale_of ne ev) <= inject_Z y / inject_Z (scale_of ne ev))%Q.
Proof.
  intros H. unfold Qdiv. apply Qmult_le_compat_r; [now rewrite <- Zle_Qle|]. apply Qlt_le_weak, Qinv_lt_0_compat, scale_Qpos.
Qed.
Lemma exact_le a b : In a gs -> In b gs -> g_le (rate_mat (scale_of ne ev) ne ev) a b -> rate_le (gsum ne a, gsum ev a) (gsum ne b, gsum ev b).
Proof. intros Ha Hb H. unfold rate_le. rewrite !rate_exact by assumption. now apply div_scale_le. Qed.
Lemma exact_ge a b : In a gs -> In b gs -> g_ge (rate_mat (scale_of ne ev) ne ev) a b -> rate_ge (gsum ne a, gsum ev a) (gsum ne b, gsum ev b).
Proof. intros Ha Hb H. unfold rate_ge. rewrite !rate_exact by assumption. now apply div_scale_le. Qed.
End Scale.
