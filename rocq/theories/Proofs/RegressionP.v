(** Proofs about Model/Regression.v. *)
From Coq Require Import List ZArith QArith Qabs Bool Lia Lqa Permutation.
From Verif Require Import Model.Regression.
Import ListNotations.
Open Scope Q_scope.

Lemma qsum_bounds a b l : (forall x, In x l -> a <= x <= b) ->
  a * inject_Z (Z.of_nat (length l)) <= qsum l <= b * inject_Z (Z.of_nat (length l)).
Proof.
  induction l as [|x l IH]; intros H.
  - cbn [qsum length]. change (inject_Z (Z.of_nat 0)) with 0. lra.
  - cbn [qsum length]. rewrite Nat2Z.inj_succ. unfold Z.succ. rewrite inject_Z_plus. change (inject_Z 1) with 1.
    specialize (IH ltac:(intros; apply H; now right)). specialize (H x (or_introl eq_refl)). lra.
Qed.
Lemma len_pos {A} (l : list A) : l <> [] -> 0 < inject_Z (Z.of_nat (length l)).
Proof. destruct l; [congruence|]. intros _. unfold Qlt, inject_Z; cbn; lia. Qed.
Lemma qmean_bounds a b l : l <> [] -> (forall x, In x l -> a <= x <= b) -> a <= qmean l <= b.
Proof.
  intros Hl H. pose proof (len_pos l Hl) as P. destruct (qsum_bounds a b l H). unfold qmean. split.
  - apply Qle_shift_div_l; assumption.
  - apply Qle_shift_div_r; assumption.
Qed.
Lemma qsum_abs l : Qabs (qsum l) <= qsum (map Qabs l).
Proof. induction l as [|a l IH]; cbn [qsum map]; [apply Qle_refl|]. pose proof (Qabs_triangle a (qsum l)). lra. Qed.
Lemma qmean_abs l : Qabs (qmean l) <= qmean (map Qabs l).
Proof.
  unfold qmean. rewrite map_length. destruct l as [|a l]; [vm_compute; discriminate|].
  pose proof (len_pos (a :: l) ltac:(congruence)) as P. pose proof (qsum_abs (a :: l)).
  unfold Qdiv. rewrite Qabs_Qmult. pose proof (Qinv_lt_0_compat _ P) as P'.
  rewrite (Qabs_pos (/ _)) by lra. apply Qmult_le_compat_r; lra.
Qed.
Lemma qsum_zero l : (forall x, In x l -> 0 <= x) -> qsum l == 0 -> forall x, In x l -> x == 0.
Proof.
  induction l as [|a l IH]; intros H E x Hx; [destruct Hx|]. cbn [qsum] in E.
  assert (Ha := H a (or_introl eq_refl)).
  assert (Hl : 0 <= qsum l). { destruct (qsum_bounds 0 (qsum (map Qabs l)) l); [|lra].
    intros y Hy. split; [apply H; now right|]. clear -Hy. induction l as [|z l IH]; [destruct Hy|]. cbn [map qsum].
    assert (0 <= qsum (map Qabs l)). { clear. induction l; cbn [map qsum]; [lra|]. pose proof (Qabs_nonneg a); lra. }
    destruct Hy as [<-|Hy]; [pose proof (Qle_Qabs z); lra|]. specialize (IH Hy). pose proof (Qabs_nonneg z); lra. }
  destruct Hx as [<-|Hx]; [lra|]. apply IH; auto; [intros; apply H; now right|lra].
Qed.
Lemma qmean_zero l : l <> [] -> (forall x, In x l -> 0 <= x) -> (qmean l == 0 <-> forall x, In x l -> x == 0).
Proof.
  intros Hl H. pose proof (len_pos l Hl) as P. split.
  - intros E. apply qsum_zero; auto. unfold qmean in E.
    assert (K : qsum l == qsum l / inject_Z (Z.of_nat (length l)) * inject_Z (Z.of_nat (length l))) by (field; lra).
    rewrite K, E. ring.
  - intros Hz. destruct (qmean_bounds 0 0 l Hl); [|lra]. intros x Hx. rewrite (Hz x Hx). lra.
Qed.
Lemma qinsert_in a l x : In x (qinsert a l) <-> x = a \/ In x l.
Proof.
  induction l as [|b l IH]; cbn [qinsert]; [cbn; intuition congruence|].
  destruct (Qle_bool a b); cbn [In]; [intuition congruence|]. rewrite IH. intuition congruence.
Qed.
Lemma qsort_in l x : In x (qsort l) <-> In x l.
Proof. induction l as [|a l IH]; cbn [qsort]; [tauto|]. rewrite qinsert_in, IH. cbn [In]. intuition congruence. Qed.
Lemma qinsert_len a l : length (qinsert a l) = S (length l).
Proof. induction l as [|b l IH]; cbn [qinsert]; [reflexivity|]. destruct (Qle_bool a b); cbn [length]; congruence. Qed.
Lemma qsort_len l : length (qsort l) = length l.
Proof. induction l as [|a l IH]; cbn [qsort]; [reflexivity|]. rewrite qinsert_len. cbn [length]. congruence. Qed.
Lemma qmedian_bounds a b l : l <> [] -> (forall x, In x l -> a <= x <= b) -> a <= qmedian l <= b.
Proof.
  intros Hl H. assert (Hn : (0 < length (qsort l))%nat) by (rewrite qsort_len; destruct l; [congruence|cbn; lia]).
  assert (K : forall i, (i < length (qsort l))%nat -> a <= nth i (qsort l) 0 <= b).
  { intros i Hi. apply H. apply qsort_in. now apply nth_In. }
  assert (H2 : (length (qsort l) / 2 < length (qsort l))%nat) by (apply Nat.div_lt; lia).
  unfold qmedian. cbv zeta. pose proof (K _ H2). pose proof (K (length (qsort l) / 2 - 1)%nat ltac:(lia)).
  destruct (Nat.even _); [|assumption].
  assert (D : forall x y, (x + y) / 2 == (1 # 2) * x + (1 # 2) * y) by (intros; field).
  rewrite D. lra.
Qed.
Lemma sym_err_range s : 0 < Qabs (fst s) + Qabs (snd s) -> 0 <= sym_err s <= 1.
Proof.
  intros H. unfold sym_err. split.
  - apply Qle_shift_div_l; [exact H|]. pose proof (Qabs_nonneg (fst s - snd s)). lra.
  - apply Qle_shift_div_r; [exact H|]. rewrite Qmult_1_l. unfold Qminus. pose proof (Qabs_triangle (fst s) (- snd s)) as T.
    rewrite Qabs_opp in T. exact T.
Qed.
Lemma abs_sum_pos a b : ~ (a == 0 /\ b == 0) -> 0 < Qabs a + Qabs b.
Proof.
  intros H. pose proof (Qabs_nonneg a). pose proof (Qabs_nonneg b).
  assert (Z : forall x, Qabs x == 0 -> x == 0).
  { intros x. apply (Qabs_case x); intros; lra. }
  destruct (Qlt_le_dec 0 (Qabs a + Qabs b)) as [|K]; [assumption|]. exfalso. apply H.
  split; apply Z; lra.
Qed.
