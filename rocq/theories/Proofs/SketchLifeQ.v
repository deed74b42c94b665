From Coq Require Import List ZArith Bool QArith Qround Lia Permutation Sorted.
From Verif Require Import Model.Arr Model.Core Model.GK Model.BSketch Model.OptSketch Model.SketchLife Spec.CoreSpec Spec.GKSpec
  Spec.BSketchSpec Spec.OptSketchSpec Spec.SketchLifeSpec Proofs.ArrP Proofs.CoreP Proofs.FitP Proofs.CoreFinal Proofs.GKP Proofs.GKR
  Proofs.GKI Proofs.GKFinal Proofs.BSketchP Proofs.OptSketchP Proofs.OptSketchFinal Proofs.MdlpP Proofs.SketchLifeP.
Import ListNotations.
Open Scope Z_scope.

(** ** two sketches of the same few values cannot be told apart *)
Definition same (a b : gk) : Prop :=
  eps a = eps b /\ gcount a = gcount b /\ gmin a = gmin b /\ entries (flush a) = entries (flush b).

Lemma ones_eq l : ones l -> l = map (fun v => mkE v 1 0) (map ev l).
Proof.
  induction 1 as [|t r [G D] _ IH]; [reflexivity|]. cbn [map]. rewrite <- IH. destruct t; cbn in *; now subst.
Qed.
Lemma sorted_vals l : sorted_e l -> nondecreasing (map ev l).
Proof.
  induction 1 as [|t r _ IH F]; cbn [map]; constructor; [assumption|]. apply Forall_map. exact F.
Qed.

Lemma min_unique a b l l' : is_min_of a l -> is_min_of b l' -> Permutation l l' -> a = b.
Proof.
  intros A B P. destruct a as [x|], b as [y|]; cbn in *.
  - destruct A as [A1 A2], B as [B1 B2]. rewrite Forall_forall in *. f_equal.
    pose proof (A2 y (Permutation_in _ (Permutation_sym P) B1)). pose proof (B2 x (Permutation_in _ P A1)). lia.
  - subst. apply Permutation_sym, Permutation_nil in P. subst. destruct A as [[] _].
  - subst. apply Permutation_nil in P. subst. destruct B as [[] _].
  - reflexivity.
Qed.

Lemma same_of e a b va vb : (0 < e)%Q -> inv e a va -> inv e b vb -> Permutation va vb ->
  (e * inject_Z (Z.of_nat (length va) - 1) < 1)%Q -> same a b.
Proof.
  intros He Ia Ib P F. pose proof (in_base _ _ _ Ia) as Ba. pose proof (in_base _ _ _ Ib) as Bb.
  assert (Ca : gcount a = gcount b) by (rewrite (ba_count _ _ _ Ba), (ba_count _ _ _ Bb), (Permutation_length P); reflexivity).
  split; [rewrite (ba_eps _ _ _ Ba), (ba_eps _ _ _ Bb); reflexivity|]. split; [assumption|].
  split; [exact (min_unique _ _ _ _ (ba_min _ _ _ Ba) (ba_min _ _ _ Bb) P)|].
  assert (K : forall g v, inv e g v -> (e * inject_Z (Z.of_nat (length v) - 1) < 1)%Q ->
            Permutation (map ev (entries (flush g))) v /\ ones (entries (flush g)) /\ sorted_e (entries (flush g))).
  { intros g v I Fv. pose proof (inv_flush e g v He I) as [B (S & H & PS)]. rewrite flush_incoming, app_nil_r in PS.
    destruct (su_small _ _ _ _ H) as [P1 O1].
    - apply small_rthr. rewrite gcount_flush, (ba_count _ _ _ (in_base _ _ _ I)). exact Fv.
    - split; [rewrite P1, <- PS; reflexivity|]. split; [assumption|]. apply (su_sorted _ _ _ _ H). }
  destruct (K a va Ia F) as (P1 & O1 & S1).
  destruct (K b vb Ib ltac:(rewrite <- (Permutation_length P); exact F)) as (P2 & O2 & S2).
  rewrite (ones_eq _ O1), (ones_eq _ O2). f_equal. apply sorted_perm_unique; [now apply sorted_vals|now apply sorted_vals|].
  rewrite P1, P2. exact P.
Qed.

Lemma same_flush a b : same a b -> same (flush a) (flush b).
Proof. intros (E1 & E2 & E3 & E4). unfold same. rewrite !eps_flush, !gcount_flush, !gmin_flush, !flush_idem. auto. Qed.

Definition rel {A B} (f : A -> B) (x y : res A) : Prop :=
  match x, y with Ok a, Ok b => f a = f b | Err u, Err v => u = v | _, _ => False end.

Lemma quantile_same a b q : same a b -> rel fst (quantile a q) (quantile b q).
Proof.
  intros (E1 & E2 & E3 & E4). unfold quantile. cbv zeta. rewrite !gmin_flush, !gcount_flush, !eps_flush, E1, E2, E3, E4.
  destruct (negb _); [reflexivity|]. destruct (Z.eqb _ _); [reflexivity|]. destruct (scan _ _ _ _); reflexivity.
Qed.
Lemma quantiles_same : forall qs a b, same a b -> rel fst (quantiles a qs) (quantiles b qs).
Proof.
  induction qs as [|q r IH]; intros a b S; cbn [quantiles]; [reflexivity|].
  pose proof (quantile_same a b q S) as K.
  destruct (quantile a q) as [[v a1]|] eqn:Ea, (quantile b q) as [[w b1]|] eqn:Eb; cbn [rel] in K; try contradiction.
  - cbn [fst] in K. subst w. cbn [rbind fst snd].
    apply quantile_flush in Ea. apply quantile_flush in Eb. subst a1 b1.
    specialize (IH _ _ (same_flush _ _ S)).
    destruct (quantiles (flush a) r) as [[x1 x2]|], (quantiles (flush b) r) as [[y1 y2]|]; cbn [rel rbind fst snd] in *; try contradiction;
      congruence.
  - exact K.
Qed.

Lemma bins_same splits a b : same a b -> gk_bins splits a = gk_bins splits b.
Proof. intros (_ & _ & _ & E). unfold gk_bins. cbv zeta. now rewrite E. Qed.

Lemma prebins_same d x y : same (bd_e x) (bd_e y) -> same (bd_ne x) (bd_ne y) -> forall f splits,
  sk_prebins f d x splits = sk_prebins f d y splits.
Proof.
  intros S1 S2. induction f as [|f IH]; intros splits; [reflexivity|]. cbn [sk_prebins].
  rewrite (bins_same splits _ _ S1), (bins_same splits _ _ S2). destruct (any _ && refines d); [|reflexivity].
  destruct splits; [reflexivity|apply IH].
Qed.

Lemma clean_perm y (l l' : list (rec_ Z)) : Permutation l l' -> Permutation (clean_of y l) (clean_of y l').
Proof. intros P. unfold clean_of. now apply Permutation_flat_map. Qed.
Lemma countb_perm {A} (f : A -> bool) l l' : Permutation l l' -> countb f l = countb f l'.
Proof.
  intros P. unfold countb. f_equal. induction P; cbn [filter]; repeat match goal with |- context [f ?x] => destruct (f x) end; cbn [length]; lia.
Qed.

Lemma flag_false e d solver m h : refines d = true -> o_flag (object e d solver m h) = false.
Proof.
  intros R. unfold object. induction h as [|h IH [l|]|h IH|h IH o IHo]; cbn [run_obj]; auto.
  - set (s := fst (run_obj _ _ _ _ _)) in *. assert (Z : forall b t, o_flag s || sees_empty d b t = false).
    { intros b t. rewrite IH. unfold sees_empty. now rewrite R. }
    unfold n_solve. destruct (o_adds s); [assumption|].
    destruct (o_data s); [|assumption]. destruct (merge_sketches _); [|assumption]. destruct (quantiles _ _); [|assumption].
    destruct (sk_prebins _ _ _ _) as [[x|x]|]; try apply Z. cbv zeta.
    destruct (if (_ <=? _)%nat then _ else _); [|apply Z].
    destruct (bin_info_1 _ _ _ _ _ _); [|apply Z]. destruct (bin_info_1 _ _ _ _ _ _); apply Z.
  - unfold n_merge. set (s := fst (run_obj _ _ _ _ h)) in *. destruct (o_data s); [|exact IH]. destruct (o_data _); exact IH.
Qed.

Lemma solve_same e d solver m l1 l2 sm1 sm2 s1 s2 b1 b2 : (0 < e)%Q -> refines d = true ->
  o_data s1 = Some b1 -> o_data s2 = Some b2 -> o_adds s1 <> 0%nat -> o_adds s2 <> 0%nat ->
  o_flag s1 = false -> o_flag s2 = false ->
  holds e l1 sm1 b1 -> holds e l2 sm2 b2 -> sm1 -> sm2 -> Permutation l1 l2 -> few e l1 ->
  snd (n_solve d solver m s1) = snd (n_solve d solver m s2) /\
  (snd (n_solve d solver m s1) = Ok tt ->
   let t1 := fst (n_solve d solver m s1) in let t2 := fst (n_solve d solver m s2) in
   o_solved t1 = true /\ o_solved t2 = true /\ o_splits t1 = o_splits t2 /\ o_rows t1 = o_rows t2 /\ o_table t1 = o_table t2).
Proof.
  intros He R D1 D2 A1 A2 F1 F2 (he & hne & -> & P1 & P2 & L) (he' & hne' & -> & P1' & P2' & L') SM1 SM2 PL Fw.
  destruct (L He SM1) as [Le Lne]. destruct (L' He SM2) as [Le' Lne'].
  assert (Pe : Permutation (values he) (values he')) by (rewrite P1, P1'; now apply clean_perm).
  assert (Pne : Permutation (values hne) (values hne')) by (rewrite P2, P2'; now apply clean_perm).
  assert (Fe : (e * inject_Z (nvals he - 1) < 1)%Q).
  { apply (few_le e l1 _ He Fw). unfold nvals. rewrite (Permutation_length P1). pose proof (clean_le true l1). lia. }
  assert (Fne : (e * inject_Z (nvals hne - 1) < 1)%Q).
  { apply (few_le e l1 _ He Fw). unfold nvals. rewrite (Permutation_length P2). pose proof (clean_le false l1). lia. }
  assert (Nne : nvals hne = nvals hne') by (unfold nvals; now rewrite (Permutation_length Pne)).
  assert (Ne : nvals he = nvals he') by (unfold nvals; now rewrite (Permutation_length Pe)).
  assert (Fa : (e * inject_Z (Z.of_nat (length (values he ++ values hne)) - 1) < 1)%Q).
  { apply (few_le e l1 _ He Fw). rewrite app_length, (Permutation_length P1), (Permutation_length P2).
    pose proof (holds_n e l1 True (sketch_of e he hne (missing_of true l1) (missing_of false l1) (special_of true l1) (special_of false l1))) as Hn.
    assert (K : bd_n (sketch_of e he hne (missing_of true l1) (missing_of false l1) (special_of true l1) (special_of false l1)) = Z.of_nat (length l1)).
    { apply Hn. exists he, hne. auto. }
    unfold bd_n, bd_n_event, bd_n_nonevent, sketch_of in K. cbn [bd_e bd_ne bd_me bd_mne bd_se bd_sne] in K. rewrite !count_build in K.
    unfold nvals in K. rewrite (Permutation_length P1), (Permutation_length P2) in K.
    pose proof (countb_nonneg (fun r => is_missing r && Bool.eqb (ry r) true) l1). pose proof (countb_nonneg (fun r => is_missing r && Bool.eqb (ry r) false) l1).
    pose proof (countb_nonneg (fun r => is_special r && Bool.eqb (ry r) true) l1). pose proof (countb_nonneg (fun r => is_special r && Bool.eqb (ry r) false) l1).
    unfold missing_of, special_of in K. lia. }
  unfold n_solve. destruct (o_adds s1); [congruence|]. destruct (o_adds s2); [congruence|]. rewrite D1, D2, F1, F2.
  assert (M : forall y, missing_of y l1 = missing_of y l2) by (intros y; unfold missing_of; now apply countb_perm).
  assert (Sp : forall y, special_of y l1 = special_of y l2) by (intros y; unfold special_of; now apply countb_perm).
  rewrite !M, !Sp.
  set (b1 := sketch_of e he hne _ _ _ _). set (b2 := sketch_of e he' hne' _ _ _ _).
  destruct (merge_sketches b1) as [[g1 c1]|] eqn:E1.
  2: { destruct (merge_sketches_total e he hne (missing_of true l2) (missing_of false l2) (special_of true l2) (special_of false l2)) as [p Q].
       unfold b1 in E1. congruence. }
  destruct (merge_sketches b2) as [[g2 c2]|] eqn:E2.
  2: { destruct (merge_sketches_total e he' hne' (missing_of true l2) (missing_of false l2) (special_of true l2) (special_of false l2)) as [p Q].
       unfold b2 in E2. congruence. }
  apply merge_sketches_spec in E1. destruct E1 as [-> ->]. apply merge_sketches_spec in E2. destruct E2 as [-> ->]. cbn [fst snd].
  assert (Sg : same (build e (HMerge (HMerge HNew he) hne)) (build e (HMerge (HMerge HNew he') hne'))).
  { apply (same_of e _ _ (values (HMerge (HMerge HNew he) hne)) (values (HMerge (HMerge HNew he') hne'))); [assumption| | | |exact Fa].
    - apply build_inv; [assumption|]. cbn [lossless values]. auto 10.
    - apply build_inv; [assumption|]. cbn [lossless values]. rewrite <- Nne. auto 10.
    - cbn [values app]. now apply Permutation_app. }
  set (c1 := sketch_of e (HMerged he HNew) _ _ _ _ _). set (c2 := sketch_of e (HMerged he' HNew) _ _ _ _ _).
  assert (Se : same (bd_e c1) (bd_e c2)).
  { apply (same_of e _ _ (values he) (values he')); [assumption| | |assumption|exact Fe].
    - apply (build_inv e (HMerged he HNew)); assumption.
    - apply (build_inv e (HMerged he' HNew)); assumption. }
  assert (Sne : same (bd_ne c1) (bd_ne c2)).
  { apply (same_of e _ _ (values hne) (values hne')); [assumption| | |assumption|exact Fne].
    - apply (build_inv e (HMerged hne (HMerge HNew he))); assumption.
    - apply (build_inv e (HMerged hne' (HMerge HNew he'))); assumption. }
  pose proof (quantiles_same (percentiles m) _ _ Sg) as Q.
  destruct (quantiles (build e (HMerge (HMerge HNew he) hne)) (percentiles m)) as [[ss g1]|],
           (quantiles (build e (HMerge (HMerge HNew he') hne')) (percentiles m)) as [[ss' g2]|]; cbn [rel fst] in Q; try contradiction.
  2: { subst. cbn [snd]. split; [reflexivity|discriminate]. }
  subst ss'. cbn [fst]. rewrite (prebins_same d c1 c2 Se Sne).
  assert (C1 : bd_n_event (bd_flush c1) = bd_n_event (bd_flush c2)).
  { unfold bd_n_event, bd_flush. cbn [bd_e bd_me bd_se]. rewrite !gcount_flush. destruct Se as (_ & -> & _). reflexivity. }
  assert (C2 : bd_n_nonevent (bd_flush c1) = bd_n_nonevent (bd_flush c2)).
  { unfold bd_n_nonevent, bd_flush. cbn [bd_ne bd_mne bd_sne]. rewrite !gcount_flush. destruct Sne as (_ & -> & _). reflexivity. }
  assert (C3 : bd_n (bd_flush c1) = bd_n (bd_flush c2)) by (unfold bd_n; congruence).
  assert (Z1 : forall c s, sees_empty d c s = false) by (intros; unfold sees_empty; now rewrite R).
  rewrite !Z1. cbn [orb o_flag].
  destruct (sk_prebins _ d c2 ss) as [[x|x]|]; try (cbn [snd]; split; [reflexivity|discriminate]).
  rewrite C1, C2, C3. change (bd_sne (bd_flush c1)) with (bd_sne (bd_flush c2)). change (bd_mne (bd_flush c1)) with (bd_mne (bd_flush c2)).
  change (bd_se (bd_flush c1)) with (bd_se (bd_flush c2)). change (bd_me (bd_flush c1)) with (bd_me (bd_flush c2)).
  destruct (if (_ <=? _)%nat then _ else _) as [sol|y]; [|cbn [snd]; split; [reflexivity|discriminate]].
  destruct (bin_info_1 1 sol _ _ [bd_sne _] _) as [a|]; [|cbn [snd]; split; [reflexivity|discriminate]].
  destruct (bin_info_1 1 sol _ _ _ _) as [c|]; [|cbn [snd]; split; [reflexivity|discriminate]].
  cbn [fst snd o_solved o_splits o_rows o_table]. auto 10.
Qed.

Lemma few_small e : (0 < e)%Q -> forall h, few e (records h) -> small_merges e h.
Proof.
  intros He. induction h as [|h IH [l|]|h IH|h IH o IHo]; cbn [records small_merges]; intros F; auto.
  - apply IH. apply (few_le e _ _ He F). rewrite app_length. lia.
  - assert (F2 : few e (records o)) by (apply (few_le e _ _ He F); rewrite app_length; lia).
    split; [|auto]. apply IH. apply (few_le e _ _ He F). rewrite app_length. lia.
Qed.

(** ** the categorical object *)
Lemma bump_keys k y t : map fst (bump_cat k y t) = if in_dec Z.eq_dec k (map fst t) then map fst t else map fst t ++ [k].
Proof.
  induction t as [|[k' c] r IH]; cbn [bump_cat map fst]; [reflexivity|]. destruct (Z.eqb_spec k k') as [->|N].
  - cbn [map fst]. destruct (in_dec Z.eq_dec k' (k' :: map fst r)) as [|K]; [reflexivity|]. destruct K. now left.
  - cbn [map fst]. rewrite IH. destruct (in_dec Z.eq_dec k (map fst r)) as [I|I], (in_dec Z.eq_dec k (k' :: map fst r)) as [J|J]; try reflexivity.
    + destruct J. now right.
    + destruct J as [->|J]; contradiction.
Qed.
Lemma join_keys kv t : map fst (join_cat kv t) = if in_dec Z.eq_dec (fst kv) (map fst t) then map fst t else map fst t ++ [fst kv].
Proof.
  induction t as [|[k' c] r IH]; cbn [join_cat map fst]; [reflexivity|]. destruct (Z.eqb_spec (fst kv) k') as [<-|N].
  - cbn [map fst]. destruct (in_dec Z.eq_dec (fst kv) (fst kv :: map fst r)) as [|K]; [reflexivity|]. destruct K. now left.
  - cbn [map fst]. rewrite IH. destruct (in_dec Z.eq_dec (fst kv) (map fst r)) as [I|I], (in_dec Z.eq_dec (fst kv) (k' :: map fst r)) as [J|J]; try reflexivity.
    + destruct J. now right.
    + destruct J as [J|J]; [congruence|contradiction].
Qed.
Lemma NoDup_snoc (l : list Z) k : NoDup l -> ~ In k l -> NoDup (l ++ [k]).
Proof. intros N I. apply (Permutation_NoDup (l := k :: l)); [apply Permutation_cons_append|]. now constructor. Qed.

(** total of category k in a dictionary *)
Definition tot (k : Z) (t : list crow) : Z * Z :=
  (zsum (map r_ne (filter (fun r => Z.eqb (fst r) k) t)), zsum (map r_e (filter (fun r => Z.eqb (fst r) k) t))).
Definition plus2 (a b : Z * Z) : Z * Z := (fst a + fst b, snd a + snd b).
Lemma tot_cons k r t : tot k (r :: t) = plus2 (if Z.eqb (fst r) k then snd r else (0, 0)) (tot k t).
Proof. unfold tot, plus2. cbn [filter]. destruct (Z.eqb (fst r) k); cbn [map zsum fst snd]; [|reflexivity]. reflexivity. Qed.
Lemma tot_bump k y t k0 : tot k0 (bump_cat k y t) = plus2 (if Z.eqb k k0 then upd y (0, 0) else (0, 0)) (tot k0 t).
Proof.
  induction t as [|[k' c] r IH]; cbn [bump_cat].
  - rewrite tot_cons. cbn [fst snd]. reflexivity.
  - destruct (Z.eqb_spec k k') as [->|N].
    + rewrite !tot_cons. cbn [fst snd]. destruct (Z.eqb k' k0); unfold plus2, upd; destruct y; cbn [fst snd]; f_equal; lia.
    + rewrite !tot_cons, IH. unfold plus2. cbn [fst snd]. f_equal; lia.
Qed.
Lemma tot_join kv t k0 : tot k0 (join_cat kv t) = plus2 (if Z.eqb (fst kv) k0 then snd kv else (0, 0)) (tot k0 t).
Proof.
  induction t as [|[k' c] r IH]; cbn [join_cat].
  - rewrite tot_cons. reflexivity.
  - destruct (Z.eqb_spec (fst kv) k') as [<-|N].
    + rewrite !tot_cons. cbn [fst snd]. destruct (Z.eqb (fst kv) k0); unfold plus2; cbn [fst snd]; f_equal; lia.
    + rewrite !tot_cons, IH. unfold plus2. cbn [fst snd]. f_equal; lia.
Qed.

Definition cat_holds (l : list (rec_ Z)) (b : cdata) : Prop :=
  NoDup (map fst (cd_t b)) /\ (forall k, tot k (cd_t b) = (in_cat k false l, in_cat k true l)) /\
  (forall k, In k (map fst (cd_t b)) <-> exists r, In r l /\ rk r = Clean k) /\
  cd_me b = missing_of true l /\ cd_mne b = missing_of false l /\ cd_se b = special_of true l /\ cd_sne b = special_of false l.

Lemma in_cat_app k y a b : in_cat k y (a ++ b) = in_cat k y a + in_cat k y b.
Proof. apply countb_app. Qed.

Lemma in_cat_one k y v b : in_cat k y [mkRec (Clean v) b] = if Z.eqb v k && Bool.eqb b y then 1 else 0.
Proof. unfold in_cat, countb. cbn [filter rk ry]. destruct (_ && _); reflexivity. Qed.
Lemma cat_holds_new : cat_holds [] cd_new.
Proof.
  split; [constructor|]. split; [reflexivity|]. split; [|auto]. intros k. split; [intros []|intros (r & [] & _)].
Qed.

Lemma add_cat_step l t : forall c, NoDup (map fst t) -> (forall k, tot k t = (in_cat k false l, in_cat k true l)) ->
  (forall k, In k (map fst t) <-> exists r, In r l /\ rk r = Clean k) ->
  let t' := fold_left add_cat c t in
  NoDup (map fst t') /\ (forall k, tot k t' = (in_cat k false (l ++ c), in_cat k true (l ++ c))) /\
  (forall k, In k (map fst t') <-> exists r, In r (l ++ c) /\ rk r = Clean k).
Proof.
  intros c. revert l t. induction c as [|r c IH]; intros l t N T K; cbn [fold_left].
  - rewrite app_nil_r. auto.
  - replace (l ++ r :: c) with ((l ++ [r]) ++ c) by now rewrite <- app_assoc.
    apply IH.
    + unfold add_cat. destruct (rk r); [|assumption|assumption]. rewrite bump_keys. destruct (in_dec _ _ _); [assumption|now apply NoDup_snoc].
    + intros k. rewrite !in_cat_app. unfold add_cat. destruct r as [[v| |] y]; cbn [rk ry].
      * rewrite tot_bump, T, !in_cat_one. unfold plus2.
        destruct (Z.eqb v k), y; cbn [andb Bool.eqb length fst snd upd]; f_equal; lia.
      * rewrite T. change (in_cat k false [mkRec Missing y]) with 0. change (in_cat k true [mkRec Missing y]) with 0. f_equal; lia.
      * rewrite T. change (in_cat k false [mkRec Special y]) with 0. change (in_cat k true [mkRec Special y]) with 0. f_equal; lia.
    + intros k. assert (S : (exists r0, In r0 (l ++ [r]) /\ rk r0 = Clean k) <-> (exists r0, In r0 l /\ rk r0 = Clean k) \/ rk r = Clean k).
      { split.
        - intros (r0 & I & E). apply in_app_or in I. destruct I as [I|[->|[]]]; [left; eauto|now right].
        - intros [(r0 & I & E)|E]; [exists r0|exists r]; (split; [apply in_or_app|assumption]); [now left|right; now left]. }
      rewrite S, <- K. unfold add_cat. destruct (rk r) as [v| |].
      * rewrite bump_keys. destruct (in_dec Z.eq_dec v (map fst t)) as [I|I].
        -- split; [now left|]. intros [J|[= ->]]; assumption.
        -- rewrite in_app_iff. cbn [In]. split; (intros [J|J]; [now left|right]).
           ++ destruct J as [->|[]]. reflexivity.
           ++ injection J as ->. now left.
      * split; [now left|]. intros [J|J]; [assumption|discriminate].
      * split; [now left|]. intros [J|J]; [assumption|discriminate].
Qed.

Lemma cat_holds_add l b c : cat_holds l b -> cat_holds (l ++ c) (cd_add b c).
Proof.
  intros (N & T & K & M1 & M2 & M3 & M4). destruct (add_cat_step l (cd_t b) c N T K) as (A1 & A2 & A3).
  unfold cat_holds, cd_add. cbn [cd_t cd_me cd_mne cd_se cd_sne]. rewrite M1, M2, M3, M4, !missing_app, !special_app.
  rewrite (missing_eq true c), (missing_eq false c), (special_eq true c), (special_eq false c). auto 10.
Qed.

Lemma join_all : forall o t, NoDup (map fst t) ->
  let t' := fold_left (fun t kv => join_cat kv t) o t in
  NoDup (map fst t') /\ (forall k, tot k t' = plus2 (tot k t) (tot k o)) /\
  (forall k, In k (map fst t') <-> In k (map fst t) \/ In k (map fst o)).
Proof.
  induction o as [|kv o IH]; intros t N; cbn [fold_left].
  - split; [assumption|]. split; [|cbn [map In]; tauto]. intros k. change (tot k []) with (0, 0). destruct (tot k t).
    unfold plus2. cbn [fst snd]. f_equal; lia.
  - destruct (IH (join_cat kv t)) as (A1 & A2 & A3).
    { rewrite join_keys. destruct (in_dec _ _ _); [assumption|now apply NoDup_snoc]. }
    split; [assumption|]. split.
    + intros k. rewrite A2, tot_join, tot_cons. unfold plus2. cbn [fst snd]. f_equal; lia.
    + intros k. rewrite A3, join_keys. cbn [map In]. destruct (in_dec Z.eq_dec (fst kv) (map fst t)) as [I|I].
      * split; [tauto|]. intros [J|[<-|J]]; tauto.
      * rewrite in_app_iff. cbn [In]. tauto.
Qed.

Lemma cat_holds_merge l lo b o : cat_holds l b -> cat_holds lo o -> cat_holds (l ++ lo) (cd_merge b o).
Proof.
  intros (N & T & K & M1 & M2 & M3 & M4) (N' & T' & K' & M1' & M2' & M3' & M4').
  destruct (join_all (cd_t o) (cd_t b) N) as (A1 & A2 & A3).
  unfold cat_holds, cd_merge. cbn [cd_t cd_me cd_mne cd_se cd_sne]. rewrite M1, M2, M3, M4, M1', M2', M3', M4', !missing_app, !special_app.
  split; [assumption|]. split; [|split; [|auto]].
  - intros k. rewrite A2, T, T', !in_cat_app. reflexivity.
  - intros k. rewrite A3, K, K'. split.
    + intros [(r & I & E)|(r & I & E)]; exists r; (split; [apply in_or_app|assumption]); [now left|now right].
    + intros (r & I & E). apply in_app_or in I. destruct I; [left|right]; eauto.
Qed.

Lemma records_untouched h : made_merges h -> touched h = false -> records h = [].
Proof.
  induction h as [|h IH [l|]|h IH|h IH o IHo]; cbn [touched records made_merges]; intros M T; try discriminate; auto.
  destruct M as (_ & _ & M & _). congruence.
Qed.

Section Cat.
Variables (cutoff : option Q) (solver : Z -> list Z -> list Z -> res (list bool)).
Notation obj := (cat_object cutoff solver).

Lemma c_solve_keeps s : k_data (fst (c_solve_obj solver cutoff s)) = k_data s /\ k_adds (fst (c_solve_obj solver cutoff s)) = k_adds s.
Proof.
  unfold c_solve_obj. destruct (k_adds s) eqn:Ea; [auto|]. destruct (k_data s) as [b|] eqn:Ed; [|cbn; auto].
  cbv zeta. destruct (cat_prebins _ _ _ _ _) as [[[[[sp nev] ev_] rd]|x]|]; try (cbn; auto; fail).
  destruct (if (_ <=? _)%nat then _ else _); [|cbn; auto].
  destruct (bin_info_1 _ _ _ _ _ _); [|cbn; auto]. destruct (bin_info_1 _ _ _ _ _ _); cbn; auto.
Qed.

Lemma cat_data h : match k_data (obj h) with
                   | None => touched h = false
                   | Some b => touched h = true /\ (made_merges h -> cat_holds (records h) b) end.
Proof.
  unfold cat_object. induction h as [|h IH [l|]|h IH|h IH o IHo]; cbn [run_cat touched made_merges records].
  - reflexivity.
  - set (s := fst (run_cat cutoff solver h)) in *. unfold c_add_obj. cbn [fst k_data]. split; [reflexivity|]. intros M.
    destruct (k_data s) as [b|]; [apply cat_holds_add; now apply IH|]. rewrite (records_untouched h M IH). apply (cat_holds_add []), cat_holds_new.
  - set (s := fst (run_cat cutoff solver h)) in *. unfold c_add_obj. cbn [fst k_data]. split; [reflexivity|]. intros M.
    destruct (k_data s) as [b|]; [now apply IH|]. rewrite (records_untouched h M IH). apply cat_holds_new.
  - destruct (c_solve_keeps (fst (run_cat cutoff solver h))) as [-> _]. exact IH.
  - unfold c_merge_obj. set (s := fst (run_cat cutoff solver h)) in *. destruct (k_data s) as [b|] eqn:E; [|cbn [fst]; now rewrite E].
    destruct (k_data (fst (run_cat cutoff solver o))) as [c|]; cbn [fst k_data].
    + split; [apply IH|]. intros (M1 & M2 & _ & _). apply cat_holds_merge; [now apply IH|now apply IHo].
    + rewrite E. split; [apply IH|]. intros (_ & _ & _ & T). congruence.
Qed.

Lemma cat_adds h : k_adds (obj h) = own_adds h.
Proof.
  unfold cat_object. induction h as [|h IH [l|]|h IH|h IH o IHo]; cbn [run_cat own_adds]; auto.
  - unfold c_add_obj. cbn [fst k_adds]. now rewrite IH.
  - destruct (c_solve_keeps (fst (run_cat cutoff solver h))) as [_ ->]. exact IH.
  - unfold c_merge_obj. destruct (k_data _); [|exact IH]. destruct (k_data _); exact IH.
Qed.

Definition pure_cat (n : Z) (a b : list Z) : list bool := match solver n a b with Ok l => l | Err _ => map (fun _ => true) a end.

Lemma c_solve_good s : snd (c_solve_obj solver cutoff s) = Ok tt ->
  exists b f, k_data s = Some b /\ cat_solve (pure_cat (cd_n_event b + cd_n_nonevent b)) cutoff b = Ok f /\
    let s' := fst (c_solve_obj solver cutoff s) in
    c_fitted_obj s' = Ok (cs_bins f, (cs_nev f, cs_ev f)) /\ c_table_obj s' = Ok (cs_bins f, (cs_nev f, cs_ev f)).
Proof.
  intros E. destruct (c_solve_obj solver cutoff s) as [s' r] eqn:Er. cbn [fst snd] in *. subst r.
  unfold c_solve_obj in Er. destruct (k_adds s); [discriminate|]. destruct (k_data s) as [b|]; [|discriminate].
  exists b. unfold cat_solve. cbv zeta in *.
  destruct (cat_prebins _ _ _ _ _) as [[[[[sp nev] ev_] rd]|x]|]; try discriminate. cbn [rbind].
  unfold pure_cat. destruct (length nev <=? 1)%nat eqn:Ef.
  - destruct (bin_info_1 1 (repeat false (length sp)) _ _ [cd_sne b] _) as [a|]; [|discriminate].
    destruct (bin_info_1 1 (repeat false (length sp)) _ _ [cd_se b] _) as [c|]; [|discriminate]. injection Er as <-.
    eexists. split; [reflexivity|]. split; [reflexivity|]. split; reflexivity.
  - destruct (solver _ nev ev_) as [sol|y]; [|discriminate].
    destruct (bin_info_1 1 sol _ _ [cd_sne b] _) as [a|]; [|discriminate].
    destruct (bin_info_1 1 sol _ _ [cd_se b] _) as [c|]; [|discriminate]. injection Er as <-.
    eexists. split; [reflexivity|]. split; [reflexivity|]. split; reflexivity.
Qed.

Lemma c_solve_bad s : snd (c_solve_obj solver cutoff s) <> Ok tt -> c_table_obj (fst (c_solve_obj solver cutoff s)) = c_table_obj s.
Proof.
  intros E. destruct (c_solve_obj solver cutoff s) as [s' r] eqn:Er. cbn [fst snd] in *.
  unfold c_solve_obj in Er. destruct (k_adds s); [injection Er as <- _; reflexivity|]. destruct (k_data s) as [b|]; [|injection Er as <- _; reflexivity].
  cbv zeta in *.
  destruct (cat_prebins _ _ _ _ _) as [[[[[sp nev] ev_] rd]|x]|]; try (injection Er as <- _; reflexivity).
  destruct (if (length nev <=? 1)%nat then _ else _) as [sol|y]; [|injection Er as <- _; reflexivity].
  destruct (bin_info_1 1 sol _ _ [cd_sne b] _) as [a|]; [|injection Er as <- _; reflexivity].
  destruct (bin_info_1 1 sol _ _ [cd_se b] _) as [c|]; [|injection Er as <- _; reflexivity].
  injection Er as _ <-. now destruct E.
Qed.

Lemma cat_table_last h :
  c_table_obj (obj h) = match cat_last_good cutoff solver h with None => Err NotFitted | Some h' => c_table_obj (obj (SSolve h')) end.
Proof.
  unfold cat_object. induction h as [|h IH [l|]|h IH|h IH o IHo]; cbn [cat_last_good]; try (rewrite <- IH).
  - reflexivity.
  - reflexivity.
  - reflexivity.
  - destruct (is_ok _) eqn:E; [reflexivity|]. rewrite <- IH. cbn [run_cat]. apply c_solve_bad. intros Q. unfold cat_outcome in E. cbn [run_cat] in E.
    rewrite Q in E. discriminate.
  - cbn [run_cat]. unfold c_merge_obj. destruct (k_data _); [|reflexivity]. destruct (k_data _); reflexivity.
Qed.

Lemma cat_fitted_last h : c_fitted_obj (obj h) = match last_solve h with None => Err NotFitted | Some h' => c_fitted_obj (obj (SSolve h')) end.
Proof.
  unfold cat_object. induction h as [|h IH [l|]|h IH|h IH o IHo]; cbn [last_solve]; try (rewrite <- IH); try reflexivity.
  cbn [run_cat]. unfold c_merge_obj. destruct (k_data _); [|reflexivity]. destruct (k_data _); reflexivity.
Qed.
End Cat.
