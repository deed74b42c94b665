(** The assignments of ls.py are the partitions of the prebins. *)
From Coq Require Import List ZArith Bool Arith Lia.
From Verif Require Import Model.Arr Model.CP Model.LS Spec.CPSpec Spec.CPFitSpec Spec.LSSpec Proofs.CPP Proofs.CPC Proofs.CPTable Proofs.CPFinal.
Import ListNotations.
Open Scope Z_scope.

Lemma ls_at_row A i m : (m <= i)%nat -> ls_at A i (Z.of_nat m) = A i (i - m)%nat.
Proof.
  intros H. unfold ls_at. rewrite Nat2Z.id. rewrite (nth_indep _ 0 (A i 0%nat)) by (rewrite rev_length, map_length, seq_length; lia).
  rewrite rev_nth by (rewrite map_length, seq_length; lia). rewrite map_nth, map_length, seq_length, seq_nth by lia. f_equal.
Qed.

Section Structure.
Variables (n : nat) (v : ls_vars).
Hypothesis Hn : (0 < n)%nat.
Hypothesis HB : ls_basic n v.
Let pend (k : nat) : Z := match k with O => 0 | S j => l_a v j end.

Lemma x01 i : (i < n)%nat -> l_x v i = 0 \/ l_x v i = 1.
Proof. intros Hi. apply (proj1 HB i Hi). Qed.
Lemma a_last : l_a v (n - 1)%nat = 0.
Proof. destruct HB as (_ & L & H). destruct (H (n - 1)%nat ltac:(lia)) as [E _]. rewrite E, L. lia. Qed.
Lemma a_prev i : (i < n)%nat -> l_a v (prev n i) = pend i.
Proof. intros Hi. destruct i; cbn [prev pend]; [apply a_last|reflexivity]. Qed.
Lemma pend_step k : (k < n)%nat -> pend (S k) = (pend k + 1) * (1 - l_x v k).
Proof. intros Hk. destruct HB as (_ & _ & H). destruct (H k Hk) as [E _]. cbn [pend]. rewrite E, (a_prev k Hk). reflexivity. Qed.
Lemma pend_range k : (k <= n)%nat -> 0 <= pend k <= Z.of_nat k.
Proof.
  induction k as [|k IH]; intros Hk; [cbn; lia|]. rewrite pend_step by lia. specialize (IH ltac:(lia)). destruct (x01 k ltac:(lia)) as [-> | ->]; lia.
Qed.
Lemma z_val i : (i < n)%nat -> l_z v i = pend i * l_x v i.
Proof.
  intros Hi. destruct HB as (_ & L & H). destruct (H i Hi) as [_ E]. rewrite E, (a_prev i Hi). destruct i as [|j]; cbn [prev pend]; [lia|].
  destruct (x01 j ltac:(lia)) as [X|X]; rewrite X; [lia|]. destruct (H j ltac:(lia)) as [F _]. rewrite X in F. nia.
Qed.
Lemma chain_snoc k gs : forall a m, (m <= k)%nat -> chain a m gs -> chain a (S k) (gs ++ [(m, k)]).
Proof. induction gs as [|[s e] gs IH]; intros a m Hm C; inversion C; subst; cbn; constructor; auto; try constructor. Qed.
Lemma groups_upto k : (k <= n)%nat -> exists gs, chain 0 (k - Z.to_nat (pend k)) gs /\
  forall s e, In (s, e) gs <-> (e < k)%nat /\ l_x v e = 1 /\ l_z v e = Z.of_nat e - Z.of_nat s.
Proof.
  induction k as [|k IH]; intros Hk.
  - exists []. split; [constructor|]. intros s e. cbn. split; [tauto|lia].
  - destruct (IH ltac:(lia)) as (gs & C & I). pose proof (pend_range k ltac:(lia)) as R. pose proof (pend_step k ltac:(lia)) as P. pose proof (z_val k ltac:(lia)) as Zk.
    destruct (x01 k ltac:(lia)) as [X|X]; rewrite X in P, Zk.
    + exists gs. split; [rewrite P; replace (S k - Z.to_nat ((pend k + 1) * (1 - 0)))%nat with (k - Z.to_nat (pend k))%nat by lia; exact C|].
      intros s e. rewrite I. split; [intros (A & B & D); repeat split; auto; lia|]. intros (A & B & D). assert (e <> k) by (intros ->; lia). repeat split; auto; lia.
    + exists (gs ++ [((k - Z.to_nat (pend k))%nat, k)]). split.
      * rewrite P. replace (S k - Z.to_nat ((pend k + 1) * (1 - 1)))%nat with (S k) by lia. apply chain_snoc; [lia|exact C].
      * intros s e. rewrite in_app_iff, I. cbn [In]. split.
        -- intros [(A & B & D)|[E|[]]]; [repeat split; auto; lia|]. injection E as <- <-. repeat split; auto; lia.
        -- intros (A & B & D). destruct (Nat.eq_dec e k) as [->|N]; [right; left; f_equal; lia|left; repeat split; auto; lia].
Qed.
Lemma ls_groups : exists gs, partition n gs /\
  forall s e, In (s, e) gs <-> (e < n)%nat /\ l_x v e = 1 /\ l_z v e = Z.of_nat e - Z.of_nat s.
Proof.
  destruct (groups_upto n (le_n n)) as (gs & C & I). exists gs. split; [|exact I]. replace (n - Z.to_nat (pend n))%nat with n in C; [exact C|].
  pose proof a_last as A. clear - A Hn. subst pend. destruct n as [|m]; [lia|]. cbv beta iota. replace (S m - 1)%nat with m in A by lia. rewrite A. cbn. lia.
Qed.
(** a selected prebin closes a group *)
Lemma selected_start i : (i < n)%nat -> l_x v i = 1 -> 0 <= l_z v i <= Z.of_nat i.
Proof. intros Hi X. rewrite (z_val i Hi), X. pose proof (pend_range i ltac:(lia)). lia. Qed.
Lemma ls_groups_selects gs : (forall s e, In (s, e) gs <-> (e < n)%nat /\ l_x v e = 1 /\ l_z v e = Z.of_nat e - Z.of_nat s) -> selects n gs v.
Proof.
  intros I i Hi. split.
  - intros X. pose proof (selected_start i Hi X). exists (i - Z.to_nat (l_z v i))%nat. apply I. repeat split; auto; lia.
  - intros (s & Hs). apply I in Hs. tauto.
Qed.
End Structure.

(** partitions with the same ends are equal *)
Lemma chain_ends a n gs : chain a n gs -> forall gs', chain a n gs' -> (forall i, (exists s, In (s, i) gs) <-> (exists s, In (s, i) gs')) -> gs = gs'.
Proof.
  intros C. induction C as [n|s e n gs Hse C IH]; intros gs' C' H.
  - destruct gs' as [|[s e] r]; [reflexivity|]. exfalso. destruct (proj2 (H e)) as (t & []). exists s. now left.
  - inversion C' as [|s' e' n' r Hse' Cr]; subst; [exfalso; destruct (proj1 (H e)) as (t & []); exists n; now left|].
    assert (e = e').
    { destruct (proj1 (H e)) as (t & I); [exists s; now left|]. destruct (proj2 (H e')) as (t' & I'); [exists s; now left|].
      assert (e' <= e)%nat by (destruct I as [[= -> ->]|I]; [lia|pose proof (chain_in _ _ _ _ _ Cr I); lia]).
      assert (e <= e')%nat by (destruct I' as [[= -> ->]|I']; [lia|pose proof (chain_in _ _ _ _ _ C I'); lia]). lia. }
    subst e'. f_equal. apply IH; [exact Cr|]. intros i. specialize (H i). split; intros (t & I).
    + destruct (proj1 H) as (t' & [[= <- <-]|I']); [exists t; now right|pose proof (chain_in _ _ _ _ _ C I); lia|eauto].
    + destruct (proj2 H) as (t' & [[= <- <-]|I']); [exists t; now right|pose proof (chain_in _ _ _ _ _ Cr I); lia|eauto].
Qed.

(** ** every partition has an assignment *)
Fixpoint pend_of (x : nat -> Z) (k : nat) : Z := match k with O => 0 | S j => (pend_of x j + 1) * (1 - x j) end.
Definition ls_of (gs : list group) : ls_vars :=
  let x := fun i => mat_of gs i i in mkLS x (fun i => pend_of x (S i)) (fun i => pend_of x i * x i).
Section Of.
Variables (n : nat) (gs : list group).
Hypothesis Hn : (0 < n)%nat.
Hypothesis Hp : partition n gs.
Let x := fun i => mat_of gs i i.
Lemma mat_of_01 i : x i = 0 \/ x i = 1.
Proof. unfold x, mat_of. destruct (existsb _ _); auto. Qed.
Lemma pend_of_range k : 0 <= pend_of x k <= Z.of_nat k.
Proof. induction k as [|k IH]; cbn [pend_of]; [lia|]. destruct (mat_of_01 k) as [-> | ->]; lia. Qed.
Lemma last_selected : x (n - 1)%nat = 1.
Proof. destruct (chain_last 0 n gs Hn Hp) as (s & I). exact (diag1 n gs (mat_of gs) Hp (mat_of_represents n gs) s _ I). Qed.
Lemma ls_of_basic : ls_basic n (ls_of gs).
Proof.
  unfold ls_basic, ls_of. cbv zeta. fold x. cbn [l_x l_a l_z]. split; [|split; [apply last_selected|]].
  - intros i Hi. change (mat_of gs i i) with (x i). split; [apply mat_of_01|]. pose proof (pend_of_range (S i)). pose proof (pend_of_range i). destruct (mat_of_01 i) as [-> | ->]; lia.
  - intros i Hi. assert (E : pend_of x (S (prev n i)) = pend_of x i).
    { destruct i as [|j]; [|reflexivity]. cbn [prev pend_of]. rewrite last_selected. lia. }
    rewrite E. split; [reflexivity|]. destruct i as [|j]; cbn [prev pend_of]; [lia|]. change (mat_of gs (S j) (S j)) with (x (S j)). destruct (mat_of_01 j) as [-> | ->]; ring.
Qed.
Lemma ls_of_selects : selects n gs (ls_of gs).
Proof. intros i Hi. unfold ls_of. cbn [l_x]. apply (diag_end n gs (mat_of gs) Hp (mat_of_represents n gs) i Hi). Qed.
End Of.
