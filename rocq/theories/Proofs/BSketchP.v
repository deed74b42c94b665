(** Binning sketches: counts over programs. *)
From Coq Require Import List ZArith Bool QArith Qround Lia Permutation.
From Verif Require Import Model.Arr Model.GK Model.BSketch Spec.GKSpec Spec.BSketchSpec
  Proofs.ArrP Proofs.GKP Proofs.GKI.
Import ListNotations.
Open Scope Z_scope.

Lemma set_nth_length {A} (x : A) : forall l n, length (set_nth n x l) = length l.
Proof. induction l as [|y r IH]; intros [|n]; cbn [set_nth length]; auto. Qed.
Lemma set_nth_same {A} (x : A) : forall l n, (n < length l)%nat -> nth_error (set_nth n x l) n = Some x.
Proof.
  induction l as [|y r IH]; intros [|n] L; cbn [length] in L; try lia; cbn [set_nth nth_error]; [reflexivity|].
  apply IH. lia.
Qed.
Lemma set_nth_other {A} (x : A) : forall l n m, n <> m -> nth_error (set_nth n x l) m = nth_error l m.
Proof.
  induction l as [|y r IH]; intros n m D; destruct n, m; try lia; cbn [set_nth nth_error]; try reflexivity.
  apply IH. lia.
Qed.
Lemma nth_set_same {A} (x d : A) : forall l n, (n < length l)%nat -> nth n (set_nth n x l) d = x.
Proof. intros l n L. apply nth_error_nth. now apply set_nth_same. Qed.
Lemma nth_set_other {A} (x d : A) l n m : n <> m -> nth m (set_nth n x l) d = nth m l d.
Proof.
  intros D. destruct (nth_error l m) as [a|] eqn:E.
  - rewrite (nth_error_nth _ _ d E). apply nth_error_nth. now rewrite set_nth_other.
  - apply nth_error_None in E. rewrite !nth_overflow; [reflexivity|assumption|]. now rewrite set_nth_length.
Qed.

Lemma countb_app {A} (f : A -> bool) a b : countb f (a ++ b) = countb f a + countb f b.
Proof. unfold countb. rewrite filter_app, app_length. lia. Qed.
Lemma countb_nonneg {A} (f : A -> bool) a : 0 <= countb f a. Proof. unfold countb; lia. Qed.
Lemma clean_of_app {A} y (a b : list (rec_ A)) : clean_of y (a ++ b) = clean_of y a ++ clean_of y b.
Proof. unfold clean_of. apply flat_map_app. Qed.

Lemma winv_perm e s v v' : Permutation v v' -> winv e s v -> winv e s v'.
Proof.
  intros P [[E C M X] S G Su V I]. constructor.
  - constructor; [assumption|now rewrite <- (Permutation_length P)| |].
    + destruct (gmin s); cbn [is_min_of] in *.
      * destruct M as [A B]. split; [eapply Permutation_in; eassumption|eapply Permutation_Forall; eassumption].
      * subst. now apply Permutation_nil in P.
    + destruct (gmax s); cbn [is_max_of] in *.
      * destruct X as [A B]. split; [eapply Permutation_in; eassumption|eapply Permutation_Forall; eassumption].
      * subst. now apply Permutation_nil in P.
  - assumption.
  - assumption.
  - now rewrite <- (Permutation_length P).
  - eapply Forall_impl; [|exact V]. cbn. intros a. now apply Permutation_in.
  - eapply Forall_impl; [|exact I]. cbn. intros a. now apply Permutation_in.
Qed.

Lemma winv_adds e : forall l s v, winv e s v -> winv e (gk_adds s l) (v ++ l).
Proof.
  induction l as [|x r IH]; intros s v W; cbn [gk_adds fold_left]; [now rewrite app_nil_r|].
  apply (winv_perm e _ ((x :: v) ++ r)).
  - cbn [app]. apply Permutation_middle.
  - apply IH. now apply winv_add.
Qed.

Lemma winv_new e : winv e (gk_new e) [].
Proof. exact (build_winv e HNew). Qed.

(** the object [b] holds the records [l] *)
Definition good (e : Q) (h : list gk) (b : bsk) (l : list (rec_ Z)) : Prop :=
  re b <> rne b /\
  (exists g, nth_error h (re b) = Some g /\ winv e g (clean_of true l)) /\
  (exists g, nth_error h (rne b) = Some g /\ winv e g (clean_of false l)) /\
  me b = missing_of true l /\ mne b = missing_of false l /\
  se b = special_of true l /\ sne b = special_of false l.

Definition apart (a b : bsk) : Prop := re a <> re b /\ re a <> rne b /\ rne a <> re b /\ rne a <> rne b.

Record binv (e : Q) (live : nat -> Prop) (w : world) (s : list (list (rec_ Z))) : Prop := {
  bi_len : length (objs w) = length s;
  bi_good : forall i b, live i -> nth_error (objs w) i = Some b -> good e (heap w) b (nth i s []);
  bi_apart : forall i j a b, live i -> live j -> i <> j ->
    nth_error (objs w) i = Some a -> nth_error (objs w) j = Some b -> apart a b;
  bi_live : forall i, live i -> (i < length s)%nat
}.

Lemma good_frame e h h' b l : nth_error h' (re b) = nth_error h (re b) -> nth_error h' (rne b) = nth_error h (rne b) ->
  good e h b l -> good e h' b l.
Proof. unfold good. intros -> ->. tauto. Qed.

Lemma good_lt e h b l : good e h b l -> (re b < length h)%nat /\ (rne b < length h)%nat.
Proof.
  intros (_ & (g & E & _) & (g' & E' & _) & _). split; apply nth_error_Some; congruence.
Qed.

Lemma obj_ex e live w s i : binv e live w s -> live i -> exists b, nth_error (objs w) i = Some b.
Proof.
  intros B L. pose proof (bi_live _ _ _ _ B i L). rewrite <- (bi_len _ _ _ _ B) in H.
  apply nth_error_Some in H. destruct (nth_error (objs w) i); [eauto|contradiction].
Qed.

(** ** creation *)
Lemma binv_new e live w s : binv e live w s -> binv e (fun i => live i \/ i = length s) (b_new e w) (s ++ [[]]).
Proof.
  intros B. pose proof (bi_len _ _ _ _ B) as Ln.
  assert (Old : forall i b, nth_error (objs w ++ [mkB (length (heap w)) (S (length (heap w))) 0 0 0 0]) i = Some b ->
    (i < length s)%nat -> nth_error (objs w) i = Some b).
  { intros i b E L. now rewrite nth_error_app1 in E by lia. }
  assert (New : forall b, nth_error (objs w ++ [mkB (length (heap w)) (S (length (heap w))) 0 0 0 0]) (length s) = Some b ->
    b = mkB (length (heap w)) (S (length (heap w))) 0 0 0 0).
  { intros b E. rewrite <- Ln, nth_error_app2, Nat.sub_diag in E by lia. cbn in E. congruence. }
  assert (LL : forall i, live i -> (i < length s)%nat) by apply (bi_live _ _ _ _ B).
  constructor; cbn [b_new objs heap].
  - rewrite !app_length. cbn [length]. lia.
  - intros i b [L| ->] E.
    + specialize (LL i L). apply Old in E; [|assumption]. pose proof (bi_good _ _ _ _ B i b L E) as G.
      rewrite app_nth1 by lia. destruct (good_lt _ _ _ _ G) as [L1 L2].
      eapply good_frame; [| |exact G]; apply nth_error_app1; lia.
    + apply New in E. subst b. rewrite app_nth2, Nat.sub_diag by lia. cbn [nth].
      unfold good. cbn [re rne me mne se sne]. split; [lia|].
      split; [exists (gk_new e); split; [|apply winv_new]|].
      { rewrite nth_error_app2, Nat.sub_diag by lia. reflexivity. }
      split; [exists (gk_new e); split; [|apply winv_new]|].
      { rewrite nth_error_app2 by lia. replace (S (length (heap w)) - length (heap w))%nat with 1%nat by lia. reflexivity. }
      repeat split.
  - intros i j a b Li Lj D Ea Eb.
    assert (K : forall i b, live i -> nth_error (objs w ++ [mkB (length (heap w)) (S (length (heap w))) 0 0 0 0]) i = Some b ->
      (re b < length (heap w))%nat /\ (rne b < length (heap w))%nat).
    { intros i0 b0 L0 E0. apply Old in E0; [|auto]. exact (good_lt _ _ _ _ (bi_good _ _ _ _ B i0 b0 L0 E0)). }
    destruct Li as [Li| ->], Lj as [Lj| ->].
    + apply Old in Ea, Eb; [|auto..]. exact (bi_apart _ _ _ _ B i j a b Li Lj D Ea Eb).
    + apply New in Eb. subst b. destruct (K _ _ Li Ea). unfold apart; cbn [re rne]. lia.
    + apply New in Ea. subst a. destruct (K _ _ Lj Eb). unfold apart; cbn [re rne]. lia.
    + contradiction.
  - intros i [L| ->]; rewrite app_length; cbn [length]; [specialize (LL i L)|]; lia.
Qed.

Lemma missing_app y a b : missing_of y (a ++ b) = missing_of y a + missing_of y b.
Proof. apply countb_app. Qed.
Lemma special_app y a b : special_of y (a ++ b) = special_of y a + special_of y b.
Proof. apply countb_app. Qed.
Lemma countb_ext {A} (f g : A -> bool) l : (forall x, f x = g x) -> countb f l = countb g l.
Proof. intros H. unfold countb. now rewrite (filter_ext f g H). Qed.

Lemma good_app e h b l m ge gne me' mne' se' sne' :
  re b <> rne b -> nth_error h (re b) = Some ge -> nth_error h (rne b) = Some gne ->
  winv e ge (clean_of true l ++ clean_of true m) -> winv e gne (clean_of false l ++ clean_of false m) ->
  me' = missing_of true l + missing_of true m -> mne' = missing_of false l + missing_of false m ->
  se' = special_of true l + special_of true m -> sne' = special_of false l + special_of false m ->
  good e h (mkB (re b) (rne b) me' mne' se' sne') (l ++ m).
Proof.
  intros D E1 E2 W1 W2 -> -> -> ->. unfold good. cbn [re rne me mne se sne].
  rewrite !clean_of_app, !missing_app, !special_app. repeat split; eauto.
Qed.

(** replacing object i and its own cells keeps the others *)
Lemma binv_update e live w s i b b' h' l' : binv e live w s -> live i ->
  nth_error (objs w) i = Some b -> re b' = re b -> rne b' = rne b ->
  (forall r, r <> re b -> r <> rne b -> nth_error h' r = nth_error (heap w) r) ->
  good e h' b' l' -> binv e live (mkW h' (set_nth i b' (objs w))) (set_nth i l' s).
Proof.
  intros B Li E R1 R2 Fr G. pose proof (bi_live _ _ _ _ B i Li) as L. pose proof (bi_len _ _ _ _ B) as Ln.
  constructor; cbn [objs heap].
  - now rewrite !set_nth_length.
  - intros k c Lk Ek. destruct (Nat.eq_dec i k) as [<-|D].
    + rewrite set_nth_same in Ek by lia. injection Ek as <-. now rewrite nth_set_same.
    + rewrite set_nth_other in Ek by assumption. rewrite nth_set_other by assumption.
      pose proof (bi_good _ _ _ _ B k c Lk Ek) as Gk.
      destruct (bi_apart _ _ _ _ B i k b c Li Lk D E Ek) as (A1 & A2 & A3 & A4).
      eapply good_frame; [| |exact Gk]; apply Fr; congruence.
  - intros k m c d Lk Lm D Ek Em.
    assert (P : forall k c, nth_error (set_nth i b' (objs w)) k = Some c ->
      exists c0, nth_error (objs w) k = Some c0 /\ re c0 = re c /\ rne c0 = rne c).
    { intros k0 c0 E0. destruct (Nat.eq_dec i k0) as [<-|D0].
      - rewrite set_nth_same in E0 by lia. injection E0 as <-. exists b. auto.
      - rewrite set_nth_other in E0 by assumption. eauto. }
    destruct (P _ _ Ek) as (c0 & Ek0 & C1 & C2). destruct (P _ _ Em) as (d0 & Em0 & D1 & D2).
    pose proof (bi_apart _ _ _ _ B k m c0 d0 Lk Lm D Ek0 Em0) as Ap. unfold apart in *. rewrite <- C1, <- C2, <- D1, <- D2.
    exact Ap.
  - intros k Lk. rewrite set_nth_length. now apply (bi_live _ _ _ _ B).
Qed.

(** ** add *)
Lemma binv_add e live w s i l : binv e live w s -> live i ->
  exists w', b_add w i l = Ok w' /\ binv e live w' (set_nth i (nth i s [] ++ l) s).
Proof.
  intros B Li. destruct (obj_ex _ _ _ _ _ B Li) as (b & Eb). unfold b_add. rewrite Eb.
  pose proof (bi_good _ _ _ _ B i b Li Eb) as G.
  destruct G as (D & (ge & E1 & W1) & (gne & E2 & W2) & M1 & M2 & M3 & M4).
  rewrite E1. rewrite set_nth_other by assumption. rewrite E2. eexists. split; [reflexivity|].
  assert (L1 : (re b < length (heap w))%nat) by (apply nth_error_Some; congruence).
  assert (L2 : (rne b < length (heap w))%nat) by (apply nth_error_Some; congruence).
  eapply binv_update; try eassumption; try reflexivity.
  - intros r R1 R2. rewrite !set_nth_other by congruence. reflexivity.
  - eapply good_app.
    + assumption.
    + rewrite set_nth_other by congruence. now apply set_nth_same.
    + apply set_nth_same. now rewrite set_nth_length.
    + now apply winv_adds.
    + now apply winv_adds.
    + rewrite M1. apply (f_equal2 Z.add); [reflexivity|]. apply countb_ext. intros r. destruct (is_missing r), (ry r); reflexivity.
    + rewrite M2. apply (f_equal2 Z.add); [reflexivity|]. apply countb_ext. intros r. destruct (is_missing r), (ry r); reflexivity.
    + rewrite M3. apply (f_equal2 Z.add); [reflexivity|]. apply countb_ext. intros r. destruct (is_special r), (ry r); reflexivity.
    + rewrite M4. apply (f_equal2 Z.add); [reflexivity|]. apply countb_ext. intros r. destruct (is_special r), (ry r); reflexivity.
Qed.

(** ** merge *)
Lemma clean_nil l : clean_of true l = [] -> clean_of false l = [] -> ~ has_clean l.
Proof.
  intros A B (r & v & I & K). destruct r as [k y]. cbn in K. subst k.
  assert (In v (clean_of y l)).
  { unfold clean_of. apply in_flat_map. exists (mkRec (Clean v) y). split; [assumption|]. cbn. destruct y; now left. }
  destruct y; [rewrite A in H|rewrite B in H]; destruct H.
Qed.

Lemma count_zero e g v : winv e g v -> gcount g = 0 -> v = [].
Proof. intros W Z0. rewrite (ba_count _ _ _ (wi_base _ _ _ W)) in Z0. destruct v; [reflexivity|cbn [length] in Z0; lia]. Qed.

Lemma h_merge_ok e h r r' s o vs vo : r <> r' -> nth_error h r = Some s -> nth_error h r' = Some o ->
  winv e s vs -> winv e o vo ->
  exists h', h_merge h r r' = Ok h' /\ length h' = length h /\
    (exists g, nth_error h' r = Some g /\ winv e g (vs ++ vo)) /\ (exists g, nth_error h' r' = Some g /\ winv e g vo) /\
    (forall k, k <> r -> k <> r' -> nth_error h' k = nth_error h k).
Proof.
  intros D E1 E2 W1 W2. unfold h_merge. rewrite E1, E2. apply Nat.eqb_neq in D as D'. rewrite D'.
  destruct (gk_merge_winv _ _ _ _ _ W1 W2) as (s' & o' & -> & W & W').
  assert (L1 : (r < length h)%nat) by (apply nth_error_Some; congruence).
  assert (L2 : (r' < length h)%nat) by (apply nth_error_Some; congruence).
  cbn [rbind fst snd]. eexists. split; [reflexivity|]. split; [now rewrite !set_nth_length|].
  split; [exists s'; split; [rewrite set_nth_other by congruence; now apply set_nth_same|assumption]|].
  split; [exists o'; split; [apply set_nth_same; now rewrite set_nth_length|assumption]|].
  intros k K1 K2. now rewrite !set_nth_other by congruence.
Qed.

Lemma set_nth_nth {A} (d : A) : forall l n, set_nth n (nth n l d) l = l.
Proof. induction l as [|y r IH]; intros [|n]; cbn [set_nth nth]; auto. f_equal. apply IH. Qed.

Lemma binv_live e (live live' : nat -> Prop) w s : (forall i, live' i -> live i) -> binv e live w s -> binv e live' w s.
Proof. intros H []. constructor; eauto. Qed.

Lemma binv_merge e live w s i j : binv e live w s -> live i -> live j -> i <> j ->
  clean_or_empty (nth i s []) -> clean_or_empty (nth j s []) ->
  exists w', b_merge w i j = Ok w' /\
    binv e (fun k => live k /\ (k <> j \/ has_clean (nth i s []))) w' (set_nth i (nth i s [] ++ nth j s []) s).
Proof.
  intros B Li Lj D Ci Cj.
  destruct (obj_ex _ _ _ _ _ B Li) as (b & Eb). destruct (obj_ex _ _ _ _ _ B Lj) as (o & Eo).
  unfold b_merge. rewrite Eb, Eo.
  pose proof (bi_good _ _ _ _ B i b Li Eb) as G. pose proof (bi_good _ _ _ _ B j o Lj Eo) as Go.
  pose proof (bi_apart _ _ _ _ B i j b o Li Lj D Eb Eo) as (A1 & A2 & A3 & A4).
  pose proof G as (Db & (be & E1 & W1) & (bne & E2 & W2) & M1 & M2 & M3 & M4).
  pose proof Go as (Do & (oe & F1 & V1) & (one & F2 & V2) & N1 & N2 & N3 & N4).
  rewrite E1, E2, F1, F2.
  pose proof (bi_live _ _ _ _ B i Li) as L. pose proof (bi_len _ _ _ _ B) as Ln.
  destruct (Z.eqb (gcount oe) 0 && Z.eqb (gcount one) 0) eqn:C1.
  { apply andb_true_iff in C1. destruct C1 as [C1 C2]. apply Z.eqb_eq in C1, C2.
    assert (nth j s [] = []) as ->.
    { destruct Cj as [->|Cj]; [reflexivity|]. exfalso. apply (clean_nil (nth j s [])); [..|assumption].
      - exact (count_zero _ _ _ V1 C1).
      - exact (count_zero _ _ _ V2 C2). }
    rewrite app_nil_r, set_nth_nth. exists w. split; [reflexivity|]. eapply binv_live; [|exact B]. tauto. }
  destruct (Z.eqb (gcount be) 0 && Z.eqb (gcount bne) 0) eqn:C2.
  { apply andb_true_iff in C2. destruct C2 as [C2 C3]. apply Z.eqb_eq in C2, C3.
    assert (NC : ~ has_clean (nth i s [])).
    { apply clean_nil; [exact (count_zero _ _ _ W1 C2)|exact (count_zero _ _ _ W2 C3)]. }
    assert (nth i s [] = []) as Ei by (destruct Ci as [?|?]; [assumption|contradiction]).
    rewrite Ei in *. cbn [app]. eexists. split; [reflexivity|]. constructor; cbn [objs heap].
    - now rewrite !set_nth_length.
    - intros k c [Lk [Dk|Hk]] Ek; [|contradiction]. destruct (Nat.eq_dec i k) as [<-|Dik].
      + rewrite set_nth_same in Ek by lia. injection Ek as <-. rewrite nth_set_same by lia. exact Go.
      + rewrite set_nth_other in Ek by assumption. rewrite nth_set_other by assumption. now apply (bi_good _ _ _ _ B k c Lk).
    - intros k m c d [Lk [Dk|Hk]] [Lm [Dm|Hm]] Dkm Ek Em; try contradiction.
      assert (P : forall k c, k <> j -> nth_error (set_nth i o (objs w)) k = Some c ->
        (k = i /\ c = o) \/ (k <> i /\ nth_error (objs w) k = Some c)).
      { intros k0 c0 _ E0. destruct (Nat.eq_dec i k0) as [<-|D0].
        - rewrite set_nth_same in E0 by lia. injection E0 as <-. now left.
        - rewrite set_nth_other in E0 by assumption. right. auto. }
      destruct (P k c Dk Ek) as [[-> ->]|[K1 K2]], (P m d Dm Em) as [[-> ->]|[K3 K4]].
      + contradiction.
      + exact (bi_apart _ _ _ _ B j m o d Lj Lm (not_eq_sym Dm) Eo K4).
      + exact (bi_apart _ _ _ _ B k j c o Lk Lj Dk K2 Eo).
      + exact (bi_apart _ _ _ _ B k m c d Lk Lm Dkm K2 K4).
    - intros k [Lk _]. rewrite set_nth_length. now apply (bi_live _ _ _ _ B). }
  destruct (h_merge_ok e (heap w) (re b) (re o) be oe _ _ A1 E1 F1 W1 V1) as (h1 & H1 & Hl1 & (g1 & G1 & X1) & (g2 & G2 & X2) & Fr1).
  rewrite H1. cbn [rbind].
  assert (Q1 : nth_error h1 (rne b) = Some bne) by (rewrite Fr1; auto).
  assert (Q2 : nth_error h1 (rne o) = Some one) by (rewrite Fr1; auto).
  destruct (h_merge_ok e h1 (rne b) (rne o) bne one _ _ A4 Q1 Q2 W2 V2) as (h2 & H2 & Hl2 & (g3 & G3 & X3) & (g4 & G4 & X4) & Fr2).
  rewrite H2. cbn [rbind]. eexists. split; [reflexivity|].
  apply (binv_live e live); [tauto|].
  set (b' := mkB _ _ _ _ _ _). set (l' := nth i s [] ++ nth j s []).
  assert (Gi : good e h2 b' l').
  { unfold b', l'. eapply good_app; try eassumption.
    - rewrite Fr2; auto.
    - congruence.
    - congruence.
    - congruence.
    - congruence. }
  assert (Gj : good e h2 o (nth j s [])).
  { unfold good. split; [assumption|]. split; [exists g2; split; [rewrite Fr2; auto|assumption]|].
    split; [exists g4; split; [assumption|assumption]|]. auto. }
  assert (Fr : forall k c, live k -> k <> i -> k <> j -> nth_error (objs w) k = Some c -> good e h2 c (nth k s [])).
  { intros k c Lk K1 K2 Ek. pose proof (bi_good _ _ _ _ B k c Lk Ek) as Gk.
    destruct (bi_apart _ _ _ _ B k i c b Lk Li K1 Ek Eb) as (P1 & P2 & P3 & P4).
    destruct (bi_apart _ _ _ _ B k j c o Lk Lj K2 Ek Eo) as (R1 & R2 & R3 & R4).
    eapply good_frame; [| |exact Gk]; rewrite Fr2, Fr1; auto. }
  constructor; cbn [objs heap].
  - now rewrite !set_nth_length.
  - intros k c Lk Ek. destruct (Nat.eq_dec i k) as [<-|Dik].
    + rewrite set_nth_same in Ek by lia. injection Ek as <-. rewrite nth_set_same by lia. exact Gi.
    + rewrite set_nth_other in Ek by assumption. rewrite nth_set_other by assumption.
      destruct (Nat.eq_dec j k) as [<-|Djk].
      * rewrite Eo in Ek. injection Ek as <-. exact Gj.
      * apply Fr; auto.
  - intros k m c d Lk Lm Dkm Ek Em.
    assert (P : forall k c, nth_error (set_nth i b' (objs w)) k = Some c ->
      exists c0, nth_error (objs w) k = Some c0 /\ re c0 = re c /\ rne c0 = rne c).
    { intros k0 c0 E0. destruct (Nat.eq_dec i k0) as [<-|D0].
      - rewrite set_nth_same in E0 by lia. injection E0 as <-. exists b. auto.
      - rewrite set_nth_other in E0 by assumption. eauto. }
    destruct (P _ _ Ek) as (c0 & Ek0 & K1 & K2). destruct (P _ _ Em) as (d0 & Em0 & D1 & D2).
    pose proof (bi_apart _ _ _ _ B k m c0 d0 Lk Lm Dkm Ek0 Em0) as Ap. unfold apart in *. rewrite <- K1, <- K2, <- D1, <- D2.
    exact Ap.
  - intros k Lk. rewrite set_nth_length. now apply (bi_live _ _ _ _ B).
Qed.

Lemma recs_step_len s o : (forall i l, o = OAdd i l -> True) -> length (recs_step s o) = (length s + match o with ONew => 1 | _ => 0 end)%nat.
Proof. intros _. destruct o; cbn [recs_step]; rewrite ?app_length, ?set_nth_length; cbn [length]; lia. Qed.

(** ** programs *)
Lemma exec_linear e : forall p w s dead, binv e (fun i => (i < length s)%nat /\ ~ In i dead) w s ->
  linear_from (length s) dead p -> merges_clean_from s p ->
  exists w', exec (step e) w p = Ok w' /\
    binv e (fun i => (i < length (fold_left recs_step p s))%nat /\ ~ In i (dead_after dead p)) w' (fold_left recs_step p s).
Proof.
  induction p as [|o p IH]; intros w s dead B Li Mc.
  - exists w. split; [reflexivity|exact B].
  - cbn [exec fold_left]. destruct o as [|i l|i j]; cbn [linear_from merges_clean_from] in *.
    + cbn [step rbind dead_after]. apply IH; [|cbn [recs_step]; now rewrite app_length, Nat.add_1_r|exact Mc].
      eapply binv_live; [|apply binv_new; exact B]. cbn [recs_step]. intros k. rewrite app_length. cbn [length].
      intros [K1 K2]. destruct (Nat.eq_dec k (length s)); [now right|left; split; [lia|assumption]].
    + destruct Li as (L1 & L2 & L3). destruct (binv_add e _ w s i l B (conj L1 L2)) as (w' & E & B').
      cbn [step dead_after]. rewrite E. cbn [rbind]. apply IH; [|cbn [recs_step]; now rewrite set_nth_length|exact Mc].
      eapply binv_live; [|exact B']. cbn [recs_step]. intros k. now rewrite set_nth_length.
    + destruct Li as (L1 & L2 & L3 & L4 & L5 & L6). destruct Mc as (C1 & C2 & C3).
      destruct (binv_merge e _ w s i j B (conj L1 L4) (conj L2 L5) L3 C1 C2) as (w' & E & B').
      cbn [step dead_after]. rewrite E. cbn [rbind]. apply IH; [|cbn [recs_step]; now rewrite set_nth_length|exact C3].
      eapply binv_live; [|exact B']. cbn [recs_step]. intros k. rewrite set_nth_length. cbn [In].
      intros [K1 K2]. split; [tauto|left; intros ->; apply K2; now left].
Qed.

Lemma exec_nonempty e : forall p w s, binv e (fun i => (i < length s)%nat) w s -> merges_nonempty_from s p ->
  exists w', exec (step e) w p = Ok w' /\
    binv e (fun i => (i < length (fold_left recs_step p s))%nat) w' (fold_left recs_step p s).
Proof.
  induction p as [|o p IH]; intros w s B Mc.
  - exists w. split; [reflexivity|exact B].
  - cbn [exec fold_left]. destruct o as [|i l|i j]; cbn [merges_nonempty_from] in *.
    + cbn [step rbind]. apply IH; [|exact Mc].
      eapply binv_live; [|apply binv_new; exact B]. cbn [recs_step]. intros k. rewrite app_length. cbn [length]. lia.
    + destruct Mc as (L1 & L3). destruct (binv_add e _ w s i l B L1) as (w' & E & B').
      cbn [step]. rewrite E. cbn [rbind]. apply IH; [|exact L3].
      eapply binv_live; [|exact B']. cbn [recs_step]. intros k. now rewrite set_nth_length.
    + destruct Mc as (L1 & L2 & L3 & C1 & C2 & C3).
      destruct (binv_merge e _ w s i j B L1 L2 L3 (or_intror C1) C2) as (w' & E & B').
      cbn [step]. rewrite E. cbn [rbind]. apply IH; [|exact C3].
      eapply binv_live; [|exact B']. cbn [recs_step]. intros k. rewrite set_nth_length. tauto.
Qed.

Lemma binv_empty e live : (forall i, ~ live i) -> binv e live (mkW [] []) [].
Proof.
  intros H. constructor; cbn [objs heap length]; [reflexivity| | |].
  - intros i b L. now apply H in L.
  - intros i j a b L. now apply H in L.
  - intros i L. now apply H in L.
Qed.

Lemma clean_len y (l : list (rec_ Z)) : Z.of_nat (length (clean_of y l)) =
  countb (fun r => Bool.eqb (ry r) y) l - missing_of y l - special_of y l.
Proof.
  induction l as [|r l IH]; [reflexivity|].
  change (r :: l) with ([r] ++ l). rewrite clean_of_app, missing_app, special_app, countb_app, app_length.
  assert (Z.of_nat (length (clean_of y [r])) = countb (fun r => Bool.eqb (ry r) y) [r] - missing_of y [r] - special_of y [r]); [|lia].
  destruct r as [[v| |] z], y, z; reflexivity.
Qed.

Lemma good_counts e w i b l : nth_error (objs w) i = Some b -> good e (heap w) b l ->
  b_n_event w i = Some (events l) /\ b_n_nonevent w i = Some (nonevents l).
Proof.
  intros E (D & (ge & E1 & W1) & (gne & E2 & W2) & M1 & M2 & M3 & M4).
  unfold b_n_event, b_n_nonevent. rewrite E, E1, E2.
  rewrite (ba_count _ _ _ (wi_base _ _ _ W1)), (ba_count _ _ _ (wi_base _ _ _ W2)), !clean_len, M1, M2, M3, M4.
  assert (EV : countb (fun r => Bool.eqb (ry r) true) l = events l)
    by (apply countb_ext; intros r; destruct (ry r); reflexivity).
  assert (NE : countb (fun r => Bool.eqb (ry r) false) l = nonevents l)
    by (apply countb_ext; intros r; destruct (ry r); reflexivity).
  split; f_equal; lia.
Qed.

(** ** bins *)
Lemma filter_le {A} f (l : list A) : (length (filter f l) <= length l)%nat.
Proof. induction l as [|x r IH]; cbn [filter length]; [lia|]. destruct (f x); cbn [length]; lia. Qed.

Lemma bins_sum {A} (g : A -> Z) (idx : A -> nat) : forall l n, (forall t, In t l -> (idx t < n)%nat) ->
  zsum (map (fun i => zsum (map g (filter (fun t => Nat.eqb (idx t) i) l))) (seq 0 n)) = zsum (map g l).
Proof.
  induction l as [|t l IH]; intros n H.
  - cbn [filter map zsum]. induction (seq 0 n) as [|a m IHm]; cbn [map zsum]; lia.
  - cbn [map zsum]. rewrite <- (IH n) by (intros u Iu; apply H; now right).
    assert (Ht := H t (or_introl eq_refl)). clear H IH.
    assert (K : forall a m, (a <= idx t < a + m)%nat ->
      zsum (map (fun i => zsum (map g (filter (fun u => Nat.eqb (idx u) i) (t :: l)))) (seq a m)) =
      g t + zsum (map (fun i => zsum (map g (filter (fun u => Nat.eqb (idx u) i) l))) (seq a m))).
    { assert (Z : forall a m, (idx t < a)%nat \/ (a + m <= idx t)%nat ->
        zsum (map (fun i => zsum (map g (filter (fun u => Nat.eqb (idx u) i) (t :: l)))) (seq a m)) =
        zsum (map (fun i => zsum (map g (filter (fun u => Nat.eqb (idx u) i) l))) (seq a m))).
      { intros a m Hd. apply zsum_map_ext. intros i Ii. apply in_seq in Ii. cbn [filter].
        destruct (Nat.eqb_spec (idx t) i); [lia|reflexivity]. }
      intros a m. revert a. induction m as [|m IHm]; intros a Hr; [lia|]. cbn [seq map zsum].
      destruct (Nat.eq_dec (idx t) a) as [E|E].
      - rewrite Z by lia. cbn [filter]. rewrite E, Nat.eqb_refl. cbn [map zsum]. lia.
      - rewrite IHm by lia. cbn [filter]. destruct (Nat.eqb_spec (idx t) a); [contradiction|]. lia. }
    apply K. lia.
Qed.

Lemma gk_bins_sum splits s : zsum (gk_bins splits s) = zsum (map eg (entries (flush s))).
Proof.
  unfold gk_bins. apply bins_sum. intros t _. unfold ss_left.
  pose proof (filter_le (fun x => Z.ltb x (ev t)) splits). lia.
Qed.
