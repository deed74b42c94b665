(** C72: final forms. *)
From Coq Require Import List ZArith Bool Lia Sorted.
From Verif Require Import Model.Arr Model.Core Model.Cat Model.Cont Model.Multi Model.Prebin Spec.CoreSpec Spec.PrebinSpec Spec.ContSpec Spec.MultiSpec
  Proofs.CoreP Proofs.CoreFinal Proofs.ContP Proofs.ContFinal Proofs.MultiP Proofs.PrebinP.
Import ListNotations.
Open Scope Z_scope.

Lemma subseq_increasing a b : subseq a b -> increasing b -> increasing a.
Proof.
  induction 1 as [l|x a b H IH|x a b H IH]; intros Hb; [constructor| |].
  - apply incr_inv in Hb. destruct Hb as [Hb Hx]. apply SSorted_cons; [apply IH, Hb|]. apply Forall_forall. intros y Hy. apply Hx. now apply (subseq_In _ _ _ H).
  - apply incr_inv in Hb. apply IH, Hb.
Qed.
Lemma rounded_ok dg l : (forall U, dg = Some U -> 0 < U) -> nondecreasing l -> nondecreasing (rounded dg l).
Proof. intros H N. destruct dg as [U|]; [apply rounded_nondecr; auto|exact N]. Qed.

Lemma cont_increasing old solver sp fixed user splits0 rs f : nondecreasing splits0 -> c_solver_ok solver ->
  fit_cont old solver sp fixed user splits0 rs = Some (Ok f) -> increasing (cf_splits f).
Proof.
  intros N K H. destruct (cont_rows _ _ _ _ _ _ _ _ N K H) as [N' R]. apply nonempty_incr; [exact N'|]. intros i Hi.
  set (p := fun r => match k_x r, k_y r with XNum z, Some _ => negb (isin (flat_codes sp) (XNum z)) && Nat.eqb (digitize (cf_splits f) z) i | _, _ => false end).
  assert (Hp : forall r, p r = true <-> in_row sp (cf_splits f) i r).
  { intros r. unfold p, in_row. destruct (k_x r) as [|z] eqn:Ex; [split; [discriminate|intros (? & ? & ? & _); discriminate]|].
    destruct (k_y r) as [y|] eqn:Ey; [|split; [discriminate|intros (? & ? & _ & ? & _); discriminate]].
    rewrite andb_true_iff, negb_true_iff, Nat.eqb_eq, <- not_true_iff_false, isin_In. split.
    - intros [A B]. exists z, y. split; [reflexivity|]. split; [reflexivity|]. split; [exact A|]. rewrite <- B. now apply digitize_in_bin.
    - intros (z' & y' & E1 & E2 & A & B). injection E1 as <-. split; [exact A|]. eapply in_bin_unique; [exact N'|apply digitize_in_bin; exact N'|exact B]. }
  destruct (R i p Hi Hp) as (row & _ & NE & _). destruct (filter p rs) as [|r l] eqn:E; [congruence|].
  assert (In r (filter p rs)) as Hr by (rewrite E; now left). apply filter_In in Hr. destruct Hr as [_ Hr]. unfold p in Hr.
  destruct (k_x r) as [|z]; [discriminate|]. destruct (k_y r); [|discriminate]. apply andb_true_iff in Hr. exists z. now apply Nat.eqb_eq.
Qed.

Lemma counts_nz dig cls data n i v : nth_error (counts 1 dig cls data n) i = Some v -> v <> 0 -> exists x, dig x = i.
Proof.
  unfold counts. intros H V. rewrite nth_error_map in H. destruct (nth_error (seq 0 n) i) as [j|] eqn:E; [|discriminate].
  assert (L : (i < length (seq 0 n))%nat) by (apply nth_error_Some; congruence). rewrite seq_length in L.
  rewrite (nth_error_nth' _ 0%nat) in E by (rewrite seq_length; exact L). rewrite seq_nth in E by exact L. injection E as <-. cbn [plus option_map] in H. injection H as <-.
  unfold bin_count in V. match type of V with context [filter ?p data] => destruct (filter p data) as [|r l] eqn:F; [exfalso; apply V; reflexivity|];
    assert (In r (filter p data)) as Hr by (rewrite F; now left) end.
  apply filter_In in Hr. destruct Hr as [_ Hr]. apply andb_true_iff in Hr. destruct Hr as [Hr1 Hr2]. exists (cx r). (apply Nat.eqb_eq; assumption).
Qed.
Lemma multi_increasing solver sp fixed user splits0 rs f : nondecreasing splits0 -> mf_classes f <> [] ->
  fit_multi solver sp fixed user splits0 rs = Some (Ok f) -> increasing (mf_splits f).
Proof.
  intros N C H. destruct (multi_subseq _ _ _ _ _ _ _ H) as (S & classes & data & [R1 R2 R3] & E). subst classes. eapply subseq_increasing; [exact S|].
  destruct (mp_splits (mf_prebins f)) as [|s r] eqn:Es; [constructor|]. rewrite <- Es in *. assert (NE : mp_splits (mf_prebins f) <> []) by (rewrite Es; discriminate).
  specialize (R2 NE). apply nonempty_incr; [exact (subseq_nondecr _ _ R1 N)|]. intros i Hi. destruct (mf_classes f) as [|cl cls]; [congruence|].
  cbn [class_cols map] in R2.
  destruct (nth_error (counts 1 (digitize (mp_splits (mf_prebins f))) true (one_vs_rest cl data) (Datatypes.S (length (mp_splits (mf_prebins f))))) i) as [v|] eqn:Q.
  - eapply counts_nz; [exact Q|]. eapply R3; [rewrite R2; left; reflexivity|]. left. cbn [fst]. eapply nth_error_In, Q.
  - apply nth_error_None in Q. unfold counts in Q. rewrite map_length, seq_length in Q. lia.
Qed.
