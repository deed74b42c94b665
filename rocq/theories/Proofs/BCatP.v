(** Categorical binning sketches. *)
From Coq Require Import List ZArith Bool QArith Lia Permutation.
From Verif Require Import Model.Arr Model.GK Model.BSketch Spec.BSketchSpec Proofs.ArrP Proofs.BSketchP.
Import ListNotations.
Open Scope Z_scope.

Definition tab (h : list (Z * Z)) (d : list (Z * nat)) (k : Z) : Z * Z :=
  match lookup k d with Some r => nth r h (0, 0) | None => (0, 0) end.
Definition padd (a b : Z * Z) : Z * Z := (fst a + fst b, snd a + snd b).

Record wf (h : list (Z * Z)) (d : list (Z * nat)) : Prop := {
  wf_keys : NoDup (map fst d);
  wf_refs : NoDup (map snd d);
  wf_lt : forall r, In r (map snd d) -> (r < length h)%nat
}.

Lemma lookup_In k d r : lookup k d = Some r -> In (k, r) d.
Proof.
  induction d as [|[k' r'] t IH]; cbn [lookup]; [discriminate|].
  destruct (Z.eqb_spec k k') as [->|]; [intros [= ->]; now left|]. intros E. right. auto.
Qed.
Lemma lookup_None k d : lookup k d = None <-> ~ In k (map fst d).
Proof.
  induction d as [|[k' r'] t IH]; cbn [lookup map fst In]; [tauto|].
  destruct (Z.eqb_spec k k') as [->|]; [split; [discriminate|intros H; exfalso; tauto]|]. rewrite IH. split; [intros H [E|E]; [congruence|auto]|tauto].
Qed.
Lemma In_lookup k r d : NoDup (map fst d) -> In (k, r) d -> lookup k d = Some r.
Proof.
  induction d as [|[k' r'] t IH]; [intros _ []|]. cbn [map fst lookup]. intros N I. inversion N as [|? ? N1 N2]; subst.
  destruct I as [E|I].
  - injection E as -> ->. now rewrite Z.eqb_refl.
  - destruct (Z.eqb_spec k k') as [->|]; [|auto]. exfalso. apply N1. apply (in_map fst) in I. exact I.
Qed.
Lemma lookup_app k a b : lookup k (a ++ b) = match lookup k a with Some r => Some r | None => lookup k b end.
Proof. induction a as [|[k' r'] t IH]; cbn [app lookup]; [reflexivity|]. destruct (Z.eqb k k'); auto. Qed.
Lemma refs_inj (d : list (Z * nat)) k k' r : NoDup (map snd d) -> In (k, r) d -> In (k', r) d -> k = k'.
Proof.
  induction d as [|[a b] t IH]; [intros _ []|]. cbn [map snd]. intros N I J. inversion N as [|? ? N1 N2]; subst.
  assert (M : forall x, In (x, b) t -> In b (map snd t)) by (intros x Ix; apply (in_map snd) in Ix; exact Ix).
  destruct I as [E|I], J as [F|J].
  - congruence.
  - injection E as -> ->. exfalso. eauto.
  - injection F as -> ->. exfalso. eauto.
  - eauto.
Qed.

Lemma tab_set h d k c x k' : wf h d -> lookup k d = Some c -> 
  tab (set_nth c x h) d k' = if Z.eqb k' k then x else tab h d k'.
Proof.
  intros W E. unfold tab. destruct (Z.eqb_spec k' k) as [->|N].
  - rewrite E. apply nth_set_same. apply (wf_lt _ _ W). apply lookup_In in E. apply (in_map snd) in E. exact E.
  - destruct (lookup k' d) as [c'|] eqn:E'; [|reflexivity]. apply nth_set_other. intros ->.
    apply N. eapply refs_inj; [apply (wf_refs _ _ W)|apply lookup_In; exact E'|apply lookup_In; exact E].
Qed.

Lemma wf_set h d c x : wf h d -> wf (set_nth c x h) d.
Proof. intros []. constructor; [assumption..|]. now rewrite set_nth_length. Qed.

Definition is_rec (k : Z) (y : bool) (r : rec_ Z) : bool :=
  match rk r with Clean v => Z.eqb v k && Bool.eqb (ry r) y | _ => false end.
Lemma in_cat_cons k y r l : in_cat k y (l ++ [r]) = in_cat k y l + (if is_rec k y r then 1 else 0).
Proof. unfold in_cat. rewrite countb_app. f_equal. unfold countb, is_rec. cbn [filter]. destruct (match rk r with Clean _ => _ | _ => _ end); reflexivity. Qed.

Definition dgood (h : list (Z * Z)) (d : list (Z * nat)) (l : list (rec_ Z)) : Prop :=
  wf h d /\ forall k, tab h d k = (in_cat k false l, in_cat k true l).

Lemma NoDup_snoc {A} (l : list A) x : NoDup l -> ~ In x l -> NoDup (l ++ [x]).
Proof.
  intros N I. apply (Permutation_NoDup (l := x :: l)); [apply Permutation_cons_append|now constructor].
Qed.

Lemma c_add1_good h d l r : dgood h d l ->
  let s := c_add1 (h, d) r in
  dgood (fst s) (snd s) (l ++ [r]) /\ (length h <= length (fst s))%nat /\
  (forall x, In x (map snd (snd s)) -> In x (map snd d) \/ (length h <= x)%nat) /\
  (forall x, (x < length h)%nat -> ~ In x (map snd d) -> nth x (fst s) (0, 0) = nth x h (0, 0)).
Proof.
  intros [W T]. unfold c_add1. destruct r as [[k| |] y]; cbn [rk ry fst snd].
  2,3: (split; [split; [assumption|intros k; rewrite T, !in_cat_cons; unfold is_rec; cbn [rk]; now rewrite !Z.add_0_r]|]; auto).
  destruct (lookup k d) as [c|] eqn:E; cbn [fst snd].
  - assert (Ic : In c (map snd d)) by (apply lookup_In in E; apply (in_map snd) in E; exact E).
    split; [split|].
    + now apply wf_set.
    + intros k'. rewrite (tab_set _ _ _ _ _ _ W E), T, !in_cat_cons. unfold is_rec; cbn [rk ry].
      rewrite (Z.eqb_sym k k'). destruct (Z.eqb_spec k' k) as [->|N]; cbn [andb].
      * assert (nth c h (0, 0) = (in_cat k false l, in_cat k true l)) as -> by (rewrite <- T; unfold tab; now rewrite E).
        destruct y; cbn [upd Bool.eqb fst snd]; f_equal; lia.
      * now rewrite !Z.add_0_r.
    + rewrite set_nth_length. split; [lia|]. split; [auto|]. intros x _ N. apply nth_set_other. intros ->. auto.
  - pose proof E as E0. apply lookup_None in E0. split; [split|].
    + destruct W as [W1 W2 W3]. constructor.
      * rewrite map_app. now apply NoDup_snoc.
      * rewrite map_app. apply NoDup_snoc; [assumption|]. intros I. apply W3 in I. cbn [snd] in I. lia.
      * intros x. rewrite map_app, in_app_iff, app_length. cbn [map snd In length]. intros [I|[<-|[]]]; [apply W3 in I|]; lia.
    + intros k'. rewrite !in_cat_cons. unfold is_rec; cbn [rk ry]. unfold tab. rewrite lookup_app. cbn [lookup].
      destruct (Z.eqb_spec k' k) as [->|N].
      * rewrite E, Z.eqb_refl. rewrite app_nth2, Nat.sub_diag by lia. cbn [nth].
        pose proof (T k) as Tk. unfold tab in Tk. rewrite E in Tk. injection Tk as T1 T2.
        rewrite <- T1, <- T2. destruct y; reflexivity.
      * rewrite (proj2 (Z.eqb_neq k k')) by congruence. cbn [andb]. rewrite !Z.add_0_r, <- T. unfold tab.
        destruct (lookup k' d) as [c'|] eqn:E'; [|reflexivity]. apply app_nth1.
        apply (wf_lt _ _ W). apply lookup_In in E'. apply (in_map snd) in E'. exact E'.
    + rewrite app_length. cbn [length]. split; [lia|]. split.
      * intros x. rewrite map_app, in_app_iff. cbn [map snd In]. intros [I|[<-|[]]]; [now left|right; lia].
      * intros x L _. now apply app_nth1.
Qed.

Lemma c_adds_good : forall m h d l, dgood h d l ->
  let s := fold_left c_add1 m (h, d) in
  dgood (fst s) (snd s) (l ++ m) /\ (length h <= length (fst s))%nat /\
  (forall x, In x (map snd (snd s)) -> In x (map snd d) \/ (length h <= x)%nat) /\
  (forall x, (x < length h)%nat -> ~ In x (map snd d) -> nth x (fst s) (0, 0) = nth x h (0, 0)).
Proof.
  induction m as [|r m IH]; intros h d l G; cbn [fold_left].
  - rewrite app_nil_r. cbn [fst snd]. auto.
  - destruct (c_add1_good h d l r G) as (G1 & L1 & R1 & F1). destruct (c_add1 (h, d) r) as [h1 d1]. cbn [fst snd] in *.
    destruct (IH h1 d1 _ G1) as (G2 & L2 & R2 & F2). rewrite <- app_assoc in G2. split; [exact G2|].
    split; [lia|]. split.
    + intros x I. apply R2 in I. destruct I as [I|I]; [apply R1 in I; tauto|right; lia].
    + intros x L N. rewrite F2; [now apply F1|lia|]. intros I. apply R1 in I. destruct I; [auto|lia].
Qed.

(** merging a list of cells *)
Lemma c_merge_tab : forall rest h d, wf h d -> wf h rest ->
  (forall x, In x (map snd rest) -> ~ In x (map snd d)) ->
  let s := fold_left c_merge1 rest (h, d) in
  wf (fst s) (snd s) /\ length (fst s) = length h /\
  (forall k, tab (fst s) (snd s) k = padd (tab h d k) (tab h rest k)) /\
  (forall x, In x (map snd (snd s)) -> In x (map snd d) \/ In x (map snd rest)) /\
  (forall x, (forall k, In (k, x) d -> ~ In k (map fst rest)) -> nth x (fst s) (0, 0) = nth x h (0, 0)).
Proof.
  induction rest as [|[k r] rest IH]; intros h d W Wr Dj; cbn [fold_left].
  - cbn [fst snd]. repeat split; auto; try apply W.
    intros k. unfold padd, tab at 3. cbn [lookup fst snd]. rewrite !Z.add_0_r. now destruct (tab h d k).
  - destruct Wr as [K1 K2 K3]. cbn [map fst snd] in *. inversion K1 as [|? ? K1a K1b]; subst. inversion K2 as [|? ? K2a K2b]; subst.
    assert (Wr' : forall h', length h' = length h -> wf h' rest).
    { intros h' Lh. constructor; [assumption|assumption|]. intros x I. rewrite Lh. apply K3. now right. }
    assert (TR : forall k', tab h ((k, r) :: rest) k' = if Z.eqb k' k then nth r h (0,0) else tab h rest k').
    { intros k'. unfold tab. cbn [lookup]. destruct (Z.eqb k' k); reflexivity. }
    assert (Tk : tab h rest k = (0, 0)) by (unfold tab; apply lookup_None in K1a; now rewrite K1a).
    destruct (lookup k d) as [c|] eqn:E.
    + set (x := padd (nth c h (0, 0)) (nth r h (0, 0))).
      assert (EQ : c_merge1 (h, d) (k, r) = (set_nth c x h, d)) by (unfold c_merge1; cbn [fst snd]; now rewrite E).
      rewrite EQ. cbv zeta.
      destruct (IH (set_nth c x h) d) as (W2 & L2 & T2 & R2 & F2).
      * now apply wf_set.
      * apply Wr'. apply set_nth_length.
      * intros y I. apply Dj. now right.
      * assert (Ic : In c (map snd d)) by (apply lookup_In in E; apply (in_map snd) in E; exact E).
        split; [exact W2|]. split; [now rewrite L2, set_nth_length|]. split; [|split].
        -- intros k'. rewrite T2, (tab_set _ _ _ _ _ _ W E), TR.
           assert (TRs : tab (set_nth c x h) rest k' = tab h rest k').
           { unfold tab. destruct (lookup k' rest) as [c'|] eqn:E'; [|reflexivity]. apply nth_set_other. intros ->.
             apply (Dj c'); [|assumption]. right. apply lookup_In in E'. apply (in_map snd) in E'. exact E'. }
           rewrite TRs. destruct (Z.eqb_spec k' k) as [->|N]; [|reflexivity].
           rewrite Tk. unfold tab. rewrite E. unfold x, padd. cbn [fst snd]. now rewrite !Z.add_0_r.
        -- intros y I. apply R2 in I. cbn [In]. tauto.
        -- intros y N. rewrite F2 by (intros k' I; intros J; apply (N k' I); now right).
           apply nth_set_other. intros ->. apply (N k); [now apply lookup_In|now left].
    + pose proof E as E0. apply lookup_None in E0.
      assert (EQ : c_merge1 (h, d) (k, r) = (h, d ++ [(k, r)])) by (unfold c_merge1; cbn [fst snd]; now rewrite E).
      rewrite EQ. cbv zeta.
      assert (Wd : wf h (d ++ [(k, r)])).
      { destruct W as [A B C]. constructor.
        - rewrite map_app. now apply NoDup_snoc.
        - rewrite map_app. apply NoDup_snoc; [assumption|]. apply Dj. now left.
        - intros y. rewrite map_app, in_app_iff. cbn [map snd In]. intros [I|[<-|[]]]; [now apply C|apply K3; now left]. }
      destruct (IH h (d ++ [(k, r)])) as (W2 & L2 & T2 & R2 & F2).
      * exact Wd.
      * now apply Wr'.
      * intros y I. rewrite map_app, in_app_iff. cbn [map snd In]. intros [J|[<-|[]]]; [|contradiction]. revert J. apply Dj. now right.
      * split; [exact W2|]. split; [exact L2|]. split; [|split].
        -- intros k'. rewrite T2, TR. unfold tab at 1. rewrite lookup_app. cbn [lookup].
           destruct (Z.eqb_spec k' k) as [->|N].
           ++ rewrite E, Tk. unfold tab. rewrite E. unfold padd; cbn [fst snd]. rewrite !Z.add_0_r. cbn [Z.add]. reflexivity.
           ++ unfold tab at 2. destruct (lookup k' d); reflexivity.
        -- intros y I. apply R2 in I. rewrite map_app, in_app_iff in I. cbn [map snd In] in *. tauto.
        -- intros y N. apply F2. intros k' I. apply in_app_or in I. destruct I as [I|[I|[]]].
           ++ intros J. apply (N k' I). now right.
           ++ injection I as -> ->. assumption.
Qed.

(** ** stores *)
Definition cgood (h : list (Z * Z)) (c : csk) (l : list (rec_ Z)) : Prop :=
  dgood h (cells c) l /\ cme c = missing_of true l /\ cmne c = missing_of false l /\ cse c = special_of true l /\ csne c = special_of false l.
Definition capart (a b : csk) : Prop := forall x, In x (map snd (cells a)) -> ~ In x (map snd (cells b)).

Record cinv (live : nat -> Prop) (w : cworld) (s : list (list (rec_ Z))) : Prop := {
  ci_len : length (cobjs w) = length s;
  ci_good : forall i b, live i -> nth_error (cobjs w) i = Some b -> cgood (cheap w) b (nth i s []);
  ci_apart : forall i j a b, live i -> live j -> i <> j ->
    nth_error (cobjs w) i = Some a -> nth_error (cobjs w) j = Some b -> capart a b;
  ci_live : forall i, live i -> (i < length s)%nat
}.

Lemma dgood_frame h h' d l : (length h <= length h')%nat -> (forall x, In x (map snd d) -> nth x h' (0, 0) = nth x h (0, 0)) ->
  dgood h d l -> dgood h' d l.
Proof.
  intros L F [[A B C] T]. split.
  - constructor; [assumption|assumption|]. intros x I. apply C in I. lia.
  - intros k. rewrite <- T. unfold tab. destruct (lookup k d) as [r|] eqn:E; [|reflexivity].
    apply F. apply lookup_In in E. apply (in_map snd) in E. exact E.
Qed.

Lemma cobj_ex live w s i : cinv live w s -> live i -> exists b, nth_error (cobjs w) i = Some b.
Proof.
  intros B L. pose proof (ci_live _ _ _ B i L). rewrite <- (ci_len _ _ _ B) in H.
  apply nth_error_Some in H. destruct (nth_error (cobjs w) i); [eauto|contradiction].
Qed.

Lemma cinv_live (live live' : nat -> Prop) w s : (forall i, live' i -> live i) -> cinv live w s -> cinv live' w s.
Proof. intros H []. constructor; eauto. Qed.

Lemma cinv_new live w s : cinv live w s -> cinv (fun i => live i \/ i = length s) (c_new w) (s ++ [[]]).
Proof.
  intros B. pose proof (ci_len _ _ _ B) as Ln.
  assert (Old : forall i b, nth_error (cobjs w ++ [mkC [] 0 0 0 0]) i = Some b ->
    (i < length s)%nat -> nth_error (cobjs w) i = Some b).
  { intros i b E L. now rewrite nth_error_app1 in E by lia. }
  assert (New : forall b, nth_error (cobjs w ++ [mkC [] 0 0 0 0]) (length s) = Some b -> b = mkC [] 0 0 0 0).
  { intros b E. rewrite <- Ln, nth_error_app2, Nat.sub_diag in E by lia. cbn in E. congruence. }
  assert (LL : forall i, live i -> (i < length s)%nat) by apply (ci_live _ _ _ B).
  constructor; cbn [c_new cobjs cheap].
  - rewrite !app_length. cbn [length]. lia.
  - intros i b [L| ->] E.
    + specialize (LL i L). apply Old in E; [|assumption]. rewrite app_nth1 by lia. now apply (ci_good _ _ _ B).
    + apply New in E. subst b. rewrite app_nth2, Nat.sub_diag by lia. cbn [nth].
      split; [|repeat split]. split; [|reflexivity]. constructor; cbn [cells map]; [constructor|constructor|intros x []].
  - intros i j a b Li Lj D Ea Eb. destruct Li as [Li| ->], Lj as [Lj| ->].
    + apply Old in Ea, Eb; [|auto..]. exact (ci_apart _ _ _ B i j a b Li Lj D Ea Eb).
    + apply New in Eb. subst b. intros x _ [].
    + apply New in Ea. subst a. intros x [].
    + contradiction.
  - intros i [L| ->]; rewrite app_length; cbn [length]; [specialize (LL i L)|]; lia.
Qed.

Lemma cinv_add live w s i l : cinv live w s -> live i ->
  exists w', c_add w i l = Ok w' /\ cinv live w' (set_nth i (nth i s [] ++ l) s).
Proof.
  intros B Li. destruct (cobj_ex _ _ _ _ B Li) as (b & Eb). unfold c_add. rewrite Eb.
  eexists. split; [reflexivity|].
  pose proof (ci_good _ _ _ B i b Li Eb) as (G & M1 & M2 & M3 & M4).
  destruct (c_adds_good l _ _ _ G) as (G' & L' & R' & F'). cbv zeta in *.
  destruct (fold_left c_add1 l (cheap w, cells b)) as [h' d']. cbn [fst snd] in *.
  pose proof (ci_live _ _ _ B i Li) as L. pose proof (ci_len _ _ _ B) as Ln.
  set (b' := mkC _ _ _ _ _).
  constructor; cbn [cobjs cheap].
  - now rewrite !set_nth_length.
  - intros k c Lk Ek. destruct (Nat.eq_dec i k) as [<-|D].
    + rewrite set_nth_same in Ek by lia. injection Ek as <-. rewrite nth_set_same by lia.
      split; [exact G'|]. unfold b'; cbn [cme cmne cse csne]. rewrite !missing_app, !special_app, M1, M2, M3, M4.
      repeat split; (apply (f_equal2 Z.add); [reflexivity|]); apply countb_ext; intros r;
        destruct (is_missing r), (is_special r), (ry r); reflexivity.
    + rewrite set_nth_other in Ek by assumption. rewrite nth_set_other by assumption.
      pose proof (ci_good _ _ _ B k c Lk Ek) as (Gk & Mk). split; [|exact Mk].
      eapply dgood_frame; [exact L'| |exact Gk]. intros x I. apply F'.
      * destruct Gk as [[_ _ C] _]. now apply C.
      * exact (ci_apart _ _ _ B k i c b Lk Li (not_eq_sym D) Ek Eb x I).
  - assert (P : forall k c, live k -> k <> i -> nth_error (cobjs w) k = Some c ->
      forall x, In x (map snd (cells c)) -> In x (map snd d') -> False).
    { intros k c Lk D Ek x I J. pose proof (ci_good _ _ _ B k c Lk Ek) as ([[_ _ C] _] & _).
      specialize (C x I). apply R' in J. destruct J as [J|J]; [|lia].
      exact (ci_apart _ _ _ B k i c b Lk Li D Ek Eb x I J). }
    intros k m c d Lk Lm D Ek Em.
    destruct (Nat.eq_dec i k) as [<-|D1], (Nat.eq_dec i m) as [<-|D2].
    + contradiction.
    + rewrite set_nth_same in Ek by lia. injection Ek as <-. rewrite set_nth_other in Em by assumption.
      intros x I J. exact (P m d Lm (not_eq_sym D2) Em x J I).
    + rewrite set_nth_same in Em by lia. injection Em as <-. rewrite set_nth_other in Ek by assumption.
      intros x I J. exact (P k c Lk (not_eq_sym D1) Ek x I J).
    + rewrite set_nth_other in Ek, Em by assumption. exact (ci_apart _ _ _ B k m c d Lk Lm D Ek Em).
  - intros k Lk. rewrite set_nth_length. now apply (ci_live _ _ _ B).
Qed.

Lemma in_cat_app k y a b : in_cat k y (a ++ b) = in_cat k y a + in_cat k y b.
Proof. apply countb_app. Qed.

Lemma cinv_merge live w s i j : cinv live w s -> live i -> live j -> i <> j ->
  exists w', c_merge w i j = Ok w' /\
    cinv (fun k => live k /\ k <> j) w' (set_nth i (nth i s [] ++ nth j s []) s).
Proof.
  intros B Li Lj Dij.
  destruct (cobj_ex _ _ _ _ B Li) as (b & Eb). destruct (cobj_ex _ _ _ _ B Lj) as (o & Eo).
  unfold c_merge. rewrite Eb, Eo. eexists. split; [reflexivity|].
  pose proof (ci_good _ _ _ B i b Li Eb) as ([Wb Tb] & M1 & M2 & M3 & M4).
  pose proof (ci_good _ _ _ B j o Lj Eo) as ([Wo To] & N1 & N2 & N3 & N4).
  pose proof (ci_apart _ _ _ B j i o b Lj Li (not_eq_sym Dij) Eo Eb) as Ap.
  destruct (c_merge_tab (cells o) (cheap w) (cells b) Wb Wo Ap) as (W' & L' & T' & R' & F'). cbv zeta in *.
  destruct (fold_left c_merge1 (cells o) (cheap w, cells b)) as [h' d']. cbn [fst snd] in *.
  pose proof (ci_live _ _ _ B i Li) as L. pose proof (ci_len _ _ _ B) as Ln.
  set (b' := mkC _ _ _ _ _).
  constructor; cbn [cobjs cheap].
  - now rewrite !set_nth_length.
  - intros k c [Lk Nk] Ek. destruct (Nat.eq_dec i k) as [<-|D].
    + rewrite set_nth_same in Ek by lia. injection Ek as <-. rewrite nth_set_same by lia.
      split; [split; [exact W'|]|].
      * intros k. unfold b'; cbn [cells]. rewrite T', Tb, To, !in_cat_app. reflexivity.
      * unfold b'; cbn [cme cmne cse csne]. rewrite !missing_app, !special_app. repeat split; congruence.
    + rewrite set_nth_other in Ek by assumption. rewrite nth_set_other by assumption.
      pose proof (ci_good _ _ _ B k c Lk Ek) as (Gk & Mk). split; [|exact Mk].
      apply (dgood_frame (cheap w)); [lia| |exact Gk]. intros x I. apply F'. intros k' I'. exfalso.
      apply (ci_apart _ _ _ B k i c b Lk Li (not_eq_sym D) Ek Eb x I). apply (in_map snd) in I'. exact I'.
  - assert (P : forall k c, live k -> k <> j -> k <> i -> nth_error (cobjs w) k = Some c ->
      forall x, In x (map snd (cells c)) -> In x (map snd d') -> False).
    { intros k c Lk D1 D2 Ek x I J. apply R' in J. destruct J as [J|J].
      - exact (ci_apart _ _ _ B k i c b Lk Li D2 Ek Eb x I J).
      - exact (ci_apart _ _ _ B k j c o Lk Lj D1 Ek Eo x I J). }
    intros k m c d [Lk Nk] [Lm Nm] D Ek Em.
    destruct (Nat.eq_dec i k) as [<-|D1], (Nat.eq_dec i m) as [<-|D2].
    + contradiction.
    + rewrite set_nth_same in Ek by lia. injection Ek as <-. rewrite set_nth_other in Em by assumption.
      intros x I J. exact (P m d Lm Nm (not_eq_sym D2) Em x J I).
    + rewrite set_nth_same in Em by lia. injection Em as <-. rewrite set_nth_other in Ek by assumption.
      intros x I J. exact (P k c Lk Nk (not_eq_sym D1) Ek x I J).
    + rewrite set_nth_other in Ek, Em by assumption. exact (ci_apart _ _ _ B k m c d Lk Lm D Ek Em).
  - intros k [Lk _]. rewrite set_nth_length. now apply (ci_live _ _ _ B).
Qed.

Lemma cexec_linear : forall p w s dead, cinv (fun i => (i < length s)%nat /\ ~ In i dead) w s ->
  linear_from (length s) dead p ->
  exists w', exec cstep w p = Ok w' /\
    cinv (fun i => (i < length (fold_left recs_step p s))%nat /\ ~ In i (dead_after dead p)) w' (fold_left recs_step p s).
Proof.
  induction p as [|o p IH]; intros w s dead B Li.
  - exists w. split; [reflexivity|exact B].
  - cbn [exec fold_left]. destruct o as [|i l|i j]; cbn [linear_from] in *.
    + cbn [cstep rbind dead_after]. apply IH; [|cbn [recs_step]; now rewrite app_length, Nat.add_1_r].
      eapply cinv_live; [|apply cinv_new; exact B]. cbn [recs_step]. intros k. rewrite app_length. cbn [length].
      intros [K1 K2]. destruct (Nat.eq_dec k (length s)); [now right|left; split; [lia|assumption]].
    + destruct Li as (L1 & L2 & L3). destruct (cinv_add _ w s i l B (conj L1 L2)) as (w' & E & B').
      cbn [cstep dead_after]. rewrite E. cbn [rbind]. apply IH; [|cbn [recs_step]; now rewrite set_nth_length].
      eapply cinv_live; [|exact B']. cbn [recs_step]. intros k. now rewrite set_nth_length.
    + destruct Li as (L1 & L2 & L3 & L4 & L5 & L6).
      destruct (cinv_merge _ w s i j B (conj L1 L4) (conj L2 L5) L3) as (w' & E & B').
      cbn [cstep dead_after]. rewrite E. cbn [rbind]. apply IH; [|cbn [recs_step]; now rewrite set_nth_length].
      eapply cinv_live; [|exact B']. cbn [recs_step]. intros k. rewrite set_nth_length. cbn [In].
      intros [K1 K2]. split; [tauto|intros ->; apply K2; now left].
Qed.

(** totals over the categories *)
Lemma keys_cover h d l : dgood h d l -> forall k y, 0 < in_cat k y l -> In k (map fst d).
Proof.
  intros [_ T] k y H. destruct (in_dec Z.eq_dec k (map fst d)) as [I|I]; [assumption|exfalso].
  apply lookup_None in I. specialize (T k). unfold tab in T. rewrite I in T. injection T as T1 T2. destruct y; lia.
Qed.

Lemma in_cat_total y l : forall ks, NoDup ks -> (forall k, 0 < in_cat k y l -> In k ks) ->
  zsum (map (fun k => in_cat k y l) ks) = Z.of_nat (length (clean_of y l)).
Proof.
  induction l as [|r l IH] using rev_ind; intros ks N C.
  - cbn. induction ks as [|k ks IHk]; [reflexivity|]. cbn [map zsum]. inversion N; subst.
    rewrite IHk; [reflexivity|assumption|]. intros k' H. unfold in_cat, countb in H. cbn in H. lia.
  - assert (C' : forall k, 0 < in_cat k y l -> In k ks).
    { intros k H. apply C. rewrite in_cat_app. unfold in_cat at 2. pose proof (countb_nonneg (fun r => match rk r with Clean v => Z.eqb v k && Bool.eqb (ry r) y | _ => false end) [r]). lia. }
    specialize (IH ks N C').
    rewrite clean_of_app, app_length, Nat2Z.inj_add, <- IH.
    rewrite (zsum_map_ext _ (fun k => in_cat k y l + (if is_rec k y r then 1 else 0))) by (intros; apply in_cat_cons).
    rewrite zsum_map_plus. f_equal.
    destruct r as [[v| |] z]; unfold is_rec; cbn [rk ry clean_of flat_map].
    2,3: clear; induction ks as [|k ks IHk]; cbn [map zsum app length]; [reflexivity|]; exact IHk.
    destruct (Bool.eqb z y) eqn:Ez; cbn [app length].
    + assert (Iv : In v ks).
      { apply C. rewrite in_cat_cons. unfold is_rec; cbn [rk ry]. rewrite Z.eqb_refl, Ez. cbn [andb].
        unfold in_cat. pose proof (countb_nonneg (fun r => match rk r with Clean v0 => Z.eqb v0 v && Bool.eqb (ry r) y | _ => false end) l). lia. }
      clear - N Iv. induction ks as [|k ks IHk]; [destruct Iv|]. inversion N as [|? ? N1 N2]; subst. cbn [map zsum].
      destruct (Z.eqb_spec v k) as [->|Nv]; cbn [andb].
      * assert (Z0 : zsum (map (fun k0 => if (k =? k0) && true then 1 else 0) ks) = 0); [|lia].
        clear - N1. induction ks as [|a ks IHk]; [reflexivity|]. cbn [map zsum].
        destruct (Z.eqb_spec k a) as [->|]; [exfalso; apply N1; now left|]. cbn [andb]. rewrite IHk; [reflexivity|].
        intros I. apply N1. now right.
      * destruct Iv as [->|Iv]; [contradiction|]. rewrite (IHk N2 Iv). reflexivity.
    + clear. induction ks as [|k ks IHk]; cbn [map zsum]; [reflexivity|]. rewrite andb_false_r. exact IHk.
Qed.

Lemma table_rows h d l : dgood h d l ->
  map (fun kv => (fst kv, nth (snd kv) h (0, 0))) d = map (fun k => (k, (in_cat k false l, in_cat k true l))) (map fst d).
Proof.
  intros [W T]. rewrite map_map. apply map_ext_in. intros [k r] I. cbn [fst snd]. f_equal. rewrite <- T.
  unfold tab. now rewrite (In_lookup _ _ _ (wf_keys _ _ W) I).
Qed.

Lemma cgood_counts w i b l : nth_error (cobjs w) i = Some b -> cgood (cheap w) b l ->
  exists ks, NoDup ks /\ (forall k y, 0 < in_cat k y l -> In k ks) /\
    c_table w i = Some (map (fun k => (k, (in_cat k false l, in_cat k true l))) ks) /\
    c_n_event w i = Some (events l) /\ c_n_nonevent w i = Some (nonevents l).
Proof.
  intros E (G & M1 & M2 & M3 & M4). exists (map fst (cells b)).
  pose proof (table_rows _ _ _ G) as TR. pose proof (keys_cover _ _ _ G) as KC.
  assert (ND : NoDup (map fst (cells b))) by apply (wf_keys _ _ (proj1 G)).
  split; [assumption|]. split; [assumption|].
  unfold c_n_event, c_n_nonevent, c_table. rewrite E, TR. split; [reflexivity|].
  rewrite !map_map. cbn [fst snd].
  assert (EV : countb (fun r => Bool.eqb (ry r) true) l = events l)
    by (apply countb_ext; intros r; destruct (ry r); reflexivity).
  assert (NE : countb (fun r => Bool.eqb (ry r) false) l = nonevents l)
    by (apply countb_ext; intros r; destruct (ry r); reflexivity).
  pose proof (in_cat_total true l _ ND (fun k => KC k true)) as A1.
  pose proof (in_cat_total false l _ ND (fun k => KC k false)) as A2.
  rewrite map_map in A1, A2. rewrite A1, A2, !clean_len. split; f_equal; lia.
Qed.
