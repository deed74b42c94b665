From Coq Require Import List ZArith Reals Bool Arith String Ascii DecimalString Lia.
From Verif Require Import Model.Arr Model.Core Model.Cont Model.Piecewise Model.PWLife Spec.PWLifeSpec.
Import ListNotations.
Open Scope string_scope.

(** words *)
Lemma starts_iff : forall p s, starts p s = true <-> exists b, s = p ++ b.
Proof.
  induction p as [|a p IH]; intro s; cbn [starts append].
  - split; [intros _; exists s; reflexivity|reflexivity].
  - destruct s as [|b s]; [split; [discriminate|intros [x [=]]]|].
    rewrite andb_true_iff, IH, Ascii.eqb_eq. split.
    + intros [-> [x ->]]. exists x. reflexivity.
    + intros [x [= -> ->]]. split; [reflexivity|exists x; reflexivity].
Qed.
Lemma contains_iff : forall w s, contains w s = true <-> has_word w s.
Proof.
  intros w s. induction s as [|c s IH]; cbn [contains]; rewrite orb_true_iff, starts_iff.
  - split.
    + intros [[b H]|[=]]. exists "", b. exact H.
    + intros (a & b & H). left. destruct a; [|discriminate]. exists b. exact H.
  - rewrite IH. split.
    + intros [[b H]|(a & b & ->)]; [exists "", b; exact H|exists (String c a), b; reflexivity].
    + intros (a & b & H). destruct a as [|a0 a]; [left; exists b; exact H|].
      right. cbn in H. injection H as -> ->. exists a, b. reflexivity.
Qed.
Lemma verdict_optimal : forall s, verdict_of s = Optimal <-> has_word "optimal" s.
Proof.
  intro s. rewrite <- contains_iff. unfold verdict_of. destruct (contains "optimal" s); [tauto|].
  destruct (contains "feasible" s), (contains "unbounded" s); split; discriminate.
Qed.
Lemma verdict_feasible : forall s, verdict_of s = Feasible <-> has_word "feasible" s /\ ~ has_word "optimal" s.
Proof.
  intro s. rewrite <- !contains_iff. unfold verdict_of. destruct (contains "optimal" s).
  - split; [discriminate|intros [_ H]; now destruct H].
  - destruct (contains "feasible" s), (contains "unbounded" s); split; try discriminate; try tauto; try (intros _; split; [reflexivity|discriminate]); intros [? ?]; discriminate.
Qed.
Lemma verdict_unbounded : forall s, verdict_of s = Unbounded <->
  has_word "unbounded" s /\ ~ has_word "optimal" s /\ ~ has_word "feasible" s.
Proof.
  intro s. rewrite <- !contains_iff. unfold verdict_of. destruct (contains "optimal" s).
  - split; [discriminate|]. intros (_ & H & _). now destruct H.
  - destruct (contains "feasible" s).
    + split; [discriminate|]. intros (_ & _ & H). now destruct H.
    + destruct (contains "unbounded" s); split; try discriminate; try (intros _; repeat split; discriminate). intros [[=] _].
Qed.
Lemma verdict_eqb_eq : forall a b, verdict_eqb a b = true <-> b = a.
Proof. intros [] []; cbn; split; congruence. Qed.
Lemma filter_all : forall A (f : A -> bool) l, List.length (filter f l) = List.length l <-> Forall (fun x => f x = true) l.
Proof.
  intros A f l. induction l as [|a l IH]; cbn [filter List.length]; [split; auto|].
  assert (L : (List.length (filter f l) <= List.length l)%nat).
  { clear. induction l as [|a l IH]; cbn [filter List.length]; [lia|]. destruct (f a); cbn [List.length]; lia. }
  destruct (f a) eqn:E; cbn [List.length].
  - split; intro H; [constructor; [exact E|apply IH; lia]|]. apply Forall_inv_tail in H. f_equal. now apply IH.
  - split; intro H; [lia|]. apply Forall_inv in H. congruence.
Qed.
Definition cnt (v : verdict) (l : list string) := List.length (filter (fun s => verdict_eqb v (verdict_of s)) l).
Lemma cnt_all : forall v l, cnt v l = List.length l <-> Forall (fun s => verdict_of s = v) l.
Proof.
  intros v l. unfold cnt. rewrite filter_all. split; intro H; eapply Forall_impl; try exact H; cbv beta; intros a Ha; now apply verdict_eqb_eq.
Qed.
Lemma per_bin : forall l, retrieve_status (PerBin l) =
  if (cnt Optimal l =? List.length l)%nat then Some "OPTIMAL"
  else if (cnt Feasible l =? List.length l)%nat then Some "FEASIBLE"
  else if (cnt Unbounded l =? List.length l)%nat then Some "UNBOUNDED"
  else Some (part "OPTIMAL" (cnt Optimal l) (List.length l) ++ part "FEASIBLE" (cnt Feasible l) (List.length l) ++
             part "UNBOUNDED" (cnt Unbounded l) (List.length l)).
Proof. reflexivity. Qed.
Lemma mixed_not_word : forall a b c n,
  let s := part "OPTIMAL" a n ++ part "FEASIBLE" b n ++ part "UNBOUNDED" c n in
  s <> "OPTIMAL" /\ s <> "FEASIBLE" /\ s <> "UNBOUNDED".
Proof.
  intros a b c n. unfold part. destruct (0 <? a)%nat, (0 <? b)%nat, (0 <? c)%nat; cbn; repeat split; discriminate.
Qed.
Lemma both_all : forall v w l, v <> w -> l <> [] -> Forall (fun s => verdict_of s = v) l -> ~ Forall (fun s => verdict_of s = w) l.
Proof. intros v w [|a l] Hn Hl H1 H2; [now apply Hl|]. apply Forall_inv in H1, H2. congruence. Qed.

Lemma per_bin_optimal : forall l, retrieve_status (PerBin l) = Some "OPTIMAL" <-> Forall (fun s => verdict_of s = Optimal) l.
Proof.
  intro l. rewrite per_bin, <- cnt_all. destruct (Nat.eqb_spec (cnt Optimal l) (List.length l)); [tauto|].
  destruct (cnt Feasible l =? _)%nat; [split; [discriminate|contradiction]|].
  destruct (cnt Unbounded l =? _)%nat; [split; [discriminate|contradiction]|].
  split; [|contradiction]. intros H. injection H as H.
  destruct (proj1 (mixed_not_word (cnt Optimal l) (cnt Feasible l) (cnt Unbounded l) (List.length l)) H).
Qed.
Lemma per_bin_feasible : forall l, l <> [] ->
  (retrieve_status (PerBin l) = Some "FEASIBLE" <-> Forall (fun s => verdict_of s = Feasible) l).
Proof.
  intros l Hl. rewrite per_bin. destruct (Nat.eqb_spec (cnt Optimal l) (List.length l)) as [E|E].
  { split; [discriminate|]. intro H. apply cnt_all in E. destruct (both_all Optimal Feasible l) as []; auto. discriminate. }
  rewrite <- cnt_all. destruct (Nat.eqb_spec (cnt Feasible l) (List.length l)); [tauto|].
  destruct (cnt Unbounded l =? _)%nat; [split; [discriminate|contradiction]|].
  split; [|contradiction]. intros H. injection H as H.
  destruct (proj1 (proj2 (mixed_not_word (cnt Optimal l) (cnt Feasible l) (cnt Unbounded l) (List.length l))) H).
Qed.
Lemma per_bin_unbounded : forall l, l <> [] ->
  (retrieve_status (PerBin l) = Some "UNBOUNDED" <-> Forall (fun s => verdict_of s = Unbounded) l).
Proof.
  intros l Hl. rewrite per_bin. destruct (Nat.eqb_spec (cnt Optimal l) (List.length l)) as [E|E].
  { split; [discriminate|]. intro H. apply cnt_all in E. destruct (both_all Optimal Unbounded l) as []; auto. discriminate. }
  destruct (Nat.eqb_spec (cnt Feasible l) (List.length l)) as [F|F].
  { split; [discriminate|]. intro H. apply cnt_all in F. destruct (both_all Feasible Unbounded l) as []; auto. discriminate. }
  rewrite <- cnt_all. destruct (Nat.eqb_spec (cnt Unbounded l) (List.length l)); [tauto|].
  split; [|contradiction]. intros H. injection H as H.
  destruct (proj2 (proj2 (mixed_not_word (cnt Optimal l) (cnt Feasible l) (cnt Unbounded l) (List.length l))) H).
Qed.
