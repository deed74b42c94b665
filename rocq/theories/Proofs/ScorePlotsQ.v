(** The numbers in the figures: AUC in terms of pairs, the area under the CAP curve, argmax. *)
From Coq Require Import List ZArith QArith Qabs Bool Arith Lia Sorting Permutation Lqa.
From Verif Require Import Model.Arr Model.ScorePlots Spec.ScorePlotsSpec Proofs.ArrP Proofs.ScorePlotsP.
Import ListNotations.
Open Scope nat_scope.

Definition gt_ (a b : Z) : bool := (b <? a)%Z.
Definition eq_ (a b : Z) : bool := (a =? b)%Z.

(** ** AUC *)
Lemma scores_snd cls l : forall F : Z -> Z, zsum (map F (map snd (filter (fun r => (fst r =? cls)%Z) l))) =
  zsum (map (fun r : Z * Z => if (fst r =? cls)%Z then F (snd r) else 0%Z) l).
Proof. intros F. induction l as [|r l IH]; [reflexivity|]. cbn [filter map zsum]. destruct (fst r =? cls)%Z; cbn [map zsum]; rewrite IH; lia. Qed.
Lemma pair_scores l a : zsum (map (fun r : Z * Z => if (fst r =? 0)%Z then pair_score a (snd r) else 0%Z) l) =
  (2 * num l (Some 0%Z) (gt_ a) + num l (Some 0%Z) (eq_ a))%Z.
Proof.
  induction l as [|r l IH]; [reflexivity|]. rewrite !num_cons. cbn [map zsum]. rewrite IH. unfold pair_score, gt_, eq_.
  destruct (fst r =? 0)%Z; cbn [andb]; [|lia]. destruct (snd r <? a)%Z eqn:E; destruct (a =? snd r)%Z eqn:F; lia.
Qed.
Lemma all_pairs l m : zsum (map (fun r : Z * Z => if (fst r =? 1)%Z then (2 * num m (Some 0%Z) (gt_ (snd r)) + num m (Some 0%Z) (eq_ (snd r)))%Z else 0%Z) l) =
  (2 * zsum (map (fun r : Z * Z => if (fst r =? 1)%Z then num m (Some 0%Z) (gt_ (snd r)) else 0%Z) l) +
   zsum (map (fun r : Z * Z => if (fst r =? 1)%Z then num m (Some 0%Z) (eq_ (snd r)) else 0%Z) l))%Z.
Proof. induction l as [|r l IH]; [reflexivity|]. cbn [map zsum]. rewrite IH. destruct (fst r =? 1)%Z; lia. Qed.
Lemma scores_length cls y p : Z.of_nat (length (scores_of cls y p)) = num (combine y p) (Some cls) (fun _ => true).
Proof. unfold scores_of, num. rewrite map_length. do 2 f_equal. apply filter_ext. intros r. now rewrite andb_true_r. Qed.
Lemma total_pos y p cls : length y = length p -> In cls y -> (0 < num (combine y p) (Some cls) (fun _ => true))%Z.
Proof.
  intros L H. destruct (In_nth _ _ 0%Z H) as [i [Hi Ei]].
  assert (G : In (cls, nth i p 0%Z) (combine y p)).
  { rewrite <- Ei. rewrite <- combine_nth by exact L. apply nth_In. rewrite combine_length. lia. }
  assert (K : In (cls, nth i p 0%Z) (filter (fun r => (fst r =? cls)%Z && true) (combine y p))).
  { apply filter_In. split; [exact G|]. cbn. now rewrite Z.eqb_refl. }
  unfold num. destruct (filter _ _); [destruct K|cbn [length]; lia].
Qed.
Lemma roc_auc_ok y p : scored y p -> exists v, roc_auc y p = Ok v /\
  v = frac (2 * pairs y p gt_ + pairs y p eq_) (2 * (total y p (Some 1%Z) * total y p (Some 0%Z))).
Proof.
  intros [L [_ [H0 H1]]]. unfold roc_auc. pose proof (scores_length 1 y p) as L1. pose proof (scores_length 0 y p) as L0.
  pose proof (total_pos y p 1 L H1) as P1. pose proof (total_pos y p 0 L H0) as P0.
  eexists. split.
  - destruct (scores_of 1 y p) as [|a e] eqn:Ee; [cbn [length] in L1; lia|]. destruct (scores_of 0 y p) as [|b m] eqn:En; [cbn [length] in L0; lia|].
    rewrite <- Ee, <- En. reflexivity.
  - rewrite L1, L0. unfold total. rewrite !num_eq. f_equal. unfold scores_of at 2. rewrite scores_snd. unfold pairs.
    etransitivity; [|exact (all_pairs (combine y p) (combine y p))]. f_equal. apply map_ext. intros r. destruct (fst r =? 1)%Z; [|reflexivity]. unfold scores_of. rewrite scores_snd. apply pair_scores.
Qed.
Lemma injpos a : (0 < a)%Z -> (0 < inject_Z a)%Q.
Proof. intros H. unfold Qlt, inject_Z. cbn. lia. Qed.
Lemma auc_value y p : scored y p -> frac (2 * pairs y p gt_ + pairs y p eq_) (2 * (total y p (Some 1%Z) * total y p (Some 0%Z))) == auc_of y p.
Proof.
  intros [L [_ [H0 H1]]]. pose proof (total_pos y p 1 L H1) as P1. pose proof (total_pos y p 0 L H0) as P0. unfold auc_of, ties, frac, total in *.
  rewrite !num_eq. set (E := num _ (Some 1%Z) _) in *. set (N := num _ (Some 0%Z) _) in *.
  change (fun a b : Z => (b <? a)%Z) with gt_. change (fun a b : Z => (a =? b)%Z) with eq_.
  rewrite inject_Z_plus, !inject_Z_mult. apply injpos in P1, P0. change (inject_Z 2) with 2%Q. field. split; lra.
Qed.

(** ** the area and the pairs, for records in decreasing order of score *)
Lemma onto_zero l x f : (forall r, In r l -> f (snd r) x = false) -> onto l x f = 0%Z.
Proof.
  intros H. unfold onto. induction l as [|r l IH]; [reflexivity|]. cbn [map zsum]. rewrite (H r (or_introl eq_refl)), IH by (intros q Hq; apply H; now right).
  destruct (fst r =? 1)%Z; reflexivity.
Qed.
Lemma onto_nonneg l x f : (0 <= onto l x f)%Z.
Proof. unfold onto. induction l as [|r l IH]; [cbn; lia|]. cbn [map zsum]. destruct (fst r =? 1)%Z; [destruct (f (snd r) x)|]; lia. Qed.
Lemma num_gt_eq l x : (forall r, In r l -> (snd r <= x)%Z) -> num l (Some 0%Z) (fun _ => true) = (num l (Some 0%Z) (gt_ x) + num l (Some 0%Z) (eq_ x))%Z.
Proof.
  intros H. induction l as [|r l IH]; [reflexivity|]. rewrite !num_cons, IH by (intros q Hq; apply H; now right).
  specialize (H r (or_introl eq_refl)). unfold gt_, eq_. destruct (fst r =? 0)%Z; cbn [andb]; [|lia].
  destruct (snd r <? x)%Z eqn:E; destruct (x =? snd r)%Z eqn:F; lia.
Qed.
Lemma before_pairs l : StronglySorted (fun a b : Z * Z => (snd b <= snd a)%Z) l -> bin01 l ->
  (- prs l eq_ <= 2 * before l - (2 * prs l gt_ + prs l eq_) <= prs l eq_)%Z /\ (0 <= prs l eq_)%Z.
Proof.
  induction 1 as [|r l Hs IH Hr]; intros B; [cbn; lia|]. assert (Bl : bin01 l) by (intros q Hq; apply B; now right). destruct (IH Bl) as [G P].
  rewrite Forall_forall in Hr. rewrite !prs_cons. cbn [before].
  assert (Z0 : onto l (snd r) gt_ = 0%Z) by (apply onto_zero; intros q Hq; apply Z.ltb_ge; now apply Hr).
  pose proof (onto_nonneg l (snd r) eq_) as O. rewrite Z0.
  rewrite (num_gt_eq l (snd r) Hr). rewrite !num_cons.
  pose proof (num_nonneg l (Some 0%Z) (eq_ (snd r))) as N1. pose proof (num_nonneg l (Some 0%Z) (gt_ (snd r))) as N2.
  destruct (B r (or_introl eq_refl)) as [E|E]; rewrite E; cbn [Z.eqb Pos.eqb andb]; lia.
Qed.

(** ** the polygon *)
Definition points (n E : Z) (i0 : nat) (cs : list Z) : list (Q * Q) := combine (map (fun i => frac (Z.of_nat i) n) (seq i0 (length cs))) (map (fun c => frac c E) cs).
Lemma area_points n E : (0 < n)%Z -> (0 < E)%Z -> forall l acc i0,
  area (points n E i0 (acc :: cumsum acc (map fst l))) == frac (twice acc l) (2 * n * E).
Proof.
  intros Hn HE. apply injpos in Hn, HE. induction l as [|r l IH]; intros acc i0.
  - cbn. unfold frac. cbn. unfold Qdiv. rewrite Qmult_0_l. reflexivity.
  - specialize (IH (acc + fst r)%Z (S i0)). unfold points in *. cbn [map cumsum length seq combine] in *.
    cbn [area]. unfold frac in *. cbn [fst snd]. rewrite IH. cbn [twice]. rewrite ?inject_Z_plus, ?inject_Z_mult, ?inject_Z_plus.
    rewrite Nat2Z.inj_succ. unfold Z.succ. rewrite !inject_Z_plus. change (inject_Z 2) with 2%Q. change (inject_Z 1) with 1%Q. field. split; lra.
Qed.

(** ** argmax *)
Lemma argmax_spec : forall l best at_ i pre, length pre = i -> at_ < i -> nth at_ pre 0%Q = best -> (forall j, j < i -> (nth j pre 0 <= best)%Q) ->
  let k := argmax best at_ i l in k < length (pre ++ l) /\ forall j, j < length (pre ++ l) -> (nth j (pre ++ l) 0 <= nth k (pre ++ l) 0)%Q.
Proof.
  induction l as [|x l IH]; intros best at_ i pre L A B M; cbn [argmax].
  - cbv zeta. rewrite app_nil_r. split; [lia|]. intros j Hj. rewrite B. apply M. lia.
  - assert (X : pre ++ x :: l = (pre ++ [x]) ++ l) by now rewrite <- app_assoc.
    assert (Lx : length (pre ++ [x]) = S i) by (rewrite app_length; cbn; lia).
    assert (Nx : nth i (pre ++ [x]) 0%Q = x) by (rewrite app_nth2 by lia; now rewrite L, Nat.sub_diag).
    destruct (Qle_bool x best) eqn:E; cbv zeta; rewrite X.
    + apply IH; [exact Lx|lia|rewrite app_nth1 by lia; exact B|]. intros j Hj. destruct (Nat.eq_dec j i) as [->|Nj].
      * rewrite Nx. now apply Qle_bool_iff.
      * rewrite app_nth1 by lia. apply M. lia.
    + assert (Hlt : (best <= x)%Q). { apply Qlt_le_weak. apply Qnot_le_lt. intros C. apply Qle_bool_iff in C. congruence. }
      apply IH; [exact Lx|lia|exact Nx|]. intros j Hj. destruct (Nat.eq_dec j i) as [->|Nj].
      * rewrite Nx. apply Qle_refl.
      * rewrite app_nth1 by lia. apply (Qle_trans _ best); [apply M; lia|exact Hlt].
Qed.
Lemma np_argmax_spec l : l <> [] -> np_argmax l < length l /\ forall j, j < length l -> (nth j l 0 <= nth (np_argmax l) l 0)%Q.
Proof.
  destruct l as [|x r]; [congruence|]. intros _. cbn [np_argmax]. change (x :: r) with ([x] ++ r). apply argmax_spec; [reflexivity|lia|reflexivity|].
  intros j Hj. assert (j = 0) as -> by lia. apply Qle_refl.
Qed.
