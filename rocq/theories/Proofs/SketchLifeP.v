From Coq Require Import List ZArith Bool QArith Qround Lia Permutation Sorted.
From Verif Require Import Model.Arr Model.Core Model.GK Model.BSketch Model.OptSketch Model.SketchLife Spec.CoreSpec Spec.GKSpec
  Spec.BSketchSpec Spec.OptSketchSpec Spec.SketchLifeSpec Proofs.ArrP Proofs.CoreP Proofs.FitP Proofs.CoreFinal Proofs.GKP Proofs.GKR
  Proofs.GKI Proofs.GKFinal Proofs.BSketchP Proofs.OptSketchP Proofs.OptSketchFinal Proofs.MdlpP.
Import ListNotations.
Open Scope Z_scope.

(** ** histories of the quantile sketches *)
Definition hadds (h : hist) (l : list Z) : hist := fold_left HAdd l h.
Lemma build_adds e : forall l h, build e (hadds h l) = gk_adds (build e h) l.
Proof. unfold hadds, gk_adds. induction l as [|v l IH]; intros h; cbn [fold_left]; [reflexivity|]. now rewrite IH. Qed.
Lemma values_adds : forall l h, Permutation (values (hadds h l)) (values h ++ l).
Proof.
  unfold hadds. induction l as [|v l IH]; intros h; cbn [fold_left]; [now rewrite app_nil_r|].
  rewrite IH. cbn [values]. cbn [app]. apply Permutation_middle.
Qed.
Lemma lossless_adds e : forall l h, lossless e h -> lossless e (hadds h l).
Proof. unfold hadds. induction l as [|v l IH]; intros h L; cbn [fold_left]; [assumption|]. now apply IH. Qed.

Lemma count_build e h : gcount (build e h) = nvals h.
Proof. apply (ba_count _ _ _ (wi_base _ _ _ (build_winv e h))). Qed.

Lemma missing_eq y l : missing_of y l = countb (fun r => is_missing r && (if y then ry r else negb (ry r))) l.
Proof. apply countb_ext. intros r. destruct y, (ry r), (is_missing r); reflexivity. Qed.
Lemma special_eq y l : special_of y l = countb (fun r => is_special r && (if y then ry r else negb (ry r))) l.
Proof. apply countb_ext. intros r. destruct y, (ry r), (is_special r); reflexivity. Qed.

Lemma clean_le y (l : list (rec_ Z)) : (length (clean_of y l) <= length l)%nat.
Proof.
  induction l as [|r l IH]; [apply Nat.le_refl|]. unfold clean_of. cbn [flat_map]. fold (clean_of y l). rewrite app_length. cbn [length].
  destruct (rk r); cbn [length]; try lia. destruct (Bool.eqb _ _); cbn [length]; lia.
Qed.

(** what a sketch object holds *)
Definition holds (e : Q) (l : list (rec_ Z)) (sm : Prop) (b : bdata) : Prop :=
  exists he hne, b = sketch_of e he hne (missing_of true l) (missing_of false l) (special_of true l) (special_of false l) /\
    Permutation (values he) (clean_of true l) /\ Permutation (values hne) (clean_of false l) /\
    ((0 < e)%Q -> sm -> lossless e he /\ lossless e hne).

Lemma holds_new e sm : holds e [] sm (bd_new e).
Proof. exists HNew, HNew. repeat split; constructor. Qed.
Lemma holds_add e l sm b c : holds e l sm b -> holds e (l ++ c) sm (bd_add b c).
Proof.
  intros (he & hne & -> & P1 & P2 & L). exists (hadds he (clean_of true c)), (hadds hne (clean_of false c)).
  split; [|split; [|split]].
  - unfold bd_add, sketch_of. cbn [bd_e bd_ne bd_me bd_mne bd_se bd_sne]. rewrite !build_adds, !missing_app, !special_app.
    now rewrite (missing_eq true c), (missing_eq false c), (special_eq true c), (special_eq false c).
  - rewrite values_adds, P1, clean_of_app. reflexivity.
  - rewrite values_adds, P2, clean_of_app. reflexivity.
  - intros He S. destruct (L He S). split; now apply lossless_adds.
Qed.

Lemma merge_build e h o : exists s' o', gk_merge (build e h) (build e o) = Ok (s', o') /\ s' = build e (HMerge h o) /\
  o' = build e (HMerged o h).
Proof.
  destruct (gk_merge_winv _ _ _ _ _ (build_winv e h) (build_winv e o)) as (s' & o' & E & _). exists s', o'. cbn [build]. rewrite E. auto.
Qed.

Lemma merge_sketches_total e he hne me mne se sne : exists p, merge_sketches (sketch_of e he hne me mne se sne) = Ok p.
Proof.
  unfold merge_sketches, sketch_of. cbn [bd_e bd_ne bd_me bd_mne bd_se bd_sne].
  assert (E : GK.eps (build e he) = e) by apply (ba_eps _ _ _ (wi_base _ _ _ (build_winv e he))). rewrite E.
  change (gk_new e) with (build e HNew). destruct (merge_build e HNew he) as (a & b & -> & -> & ->). cbn [rbind fst snd].
  destruct (merge_build e (HMerge HNew he) hne) as (a & b & -> & -> & ->). cbn [rbind]. eauto.
Qed.

Lemma has_clean_count e he hne l : Permutation (values he) (clean_of true l) -> Permutation (values hne) (clean_of false l) ->
  has_clean l -> Z.eqb (gcount (build e he)) 0 && Z.eqb (gcount (build e hne)) 0 = false.
Proof.
  intros P1 P2 H. rewrite !count_build. unfold nvals. rewrite (Permutation_length P1), (Permutation_length P2).
  apply not_true_iff_false. intros E. apply andb_true_iff in E. destruct E as [E1 E2]. apply Z.eqb_eq in E1, E2.
  apply (clean_nil l); [apply length_zero_iff_nil; lia|apply length_zero_iff_nil; lia|assumption].
Qed.

Lemma few_le e l (n : Z) : (0 < e)%Q -> few e l -> n <= Z.of_nat (length l) -> (e * inject_Z (n - 1) < 1)%Q.
Proof.
  intros He F L. eapply Qle_lt_trans; [|exact F]. apply Qmult_le_l; [assumption|]. rewrite <- Zle_Qle. lia.
Qed.

Lemma holds_merge e l lo sm so b o : holds e l sm b -> holds e lo so o -> has_clean l -> has_clean lo ->
  exists b', bd_merge b o = (b', Ok tt) /\ holds e (l ++ lo) (sm /\ so /\ few e lo) b'.
Proof.
  intros (he & hne & -> & P1 & P2 & L) (he' & hne' & -> & P1' & P2' & L') H H'.
  unfold bd_merge, sketch_of. cbn [bd_e bd_ne bd_me bd_mne bd_se bd_sne].
  rewrite (has_clean_count e he' hne' lo P1' P2' H'), (has_clean_count e he hne l P1 P2 H).
  destruct (merge_build e he he') as (a & a' & -> & -> & _). destruct (merge_build e hne hne') as (c & c' & -> & -> & _).
  eexists. split; [reflexivity|]. cbn [fst]. exists (HMerge he he'), (HMerge hne hne'). split; [|split; [|split]].
  - unfold sketch_of. now rewrite !missing_app, !special_app.
  - cbn [values]. rewrite P1, P1', clean_of_app. reflexivity.
  - cbn [values]. rewrite P2, P2', clean_of_app. reflexivity.
  - intros He (S & S' & F). destruct (L He S), (L' He S'). cbn [lossless].
    assert (K : forall hh y, Permutation (values hh) (clean_of y lo) -> (e * inject_Z (nvals hh - 1) < 1)%Q).
    { intros hh y P. apply (few_le e lo); [assumption|assumption|]. unfold nvals. rewrite (Permutation_length P).
      pose proof (clean_le y lo). lia. }
    split; (split; [assumption|split; [assumption|right]]); eauto.
Qed.

Lemma flush_build e h : flush (build e h) = build e (HLen h). Proof. reflexivity. Qed.

Lemma holds_b1 e l sm b p : holds e l sm b -> merge_sketches b = Ok p -> holds e l sm (snd p) /\ holds e l sm (bd_flush (snd p)).
Proof.
  intros (he & hne & -> & P1 & P2 & L) E. destruct p as [g b1]. apply merge_sketches_spec in E. destruct E as [-> ->]. cbn [snd].
  split.
  - exists (HMerged he HNew), (HMerged hne (HMerge HNew he)). auto.
  - exists (HLen (HMerged he HNew)), (HLen (HMerged hne (HMerge HNew he))). auto.
Qed.

(** ** one solve *)
Lemma n_solve_data d solver m s : o_data (fst (n_solve d solver m s)) = o_data s \/
  exists b p, o_data s = Some b /\ merge_sketches b = Ok p /\
    (o_data (fst (n_solve d solver m s)) = Some (snd p) \/ o_data (fst (n_solve d solver m s)) = Some (bd_flush (snd p))).
Proof.
  unfold n_solve. destruct (o_adds s); [now left|]. destruct (o_data s) as [b|] eqn:Ed; [|left; exact Ed].
  destruct (merge_sketches b) as [p|x] eqn:Em; [|left; exact Ed]. right. exists b, p. split; [reflexivity|]. split; [assumption|].
  destruct (quantiles _ _) as [t|x]; [|now left]. right.
  destruct (sk_prebins _ _ _ _) as [[x|x]|]; try reflexivity.
  destruct (if (_ <=? _)%nat then _ else _) as [sol|y]; [|reflexivity].
  destruct (bin_info_1 _ _ _ _ _ _); [|reflexivity]. destruct (bin_info_1 _ _ _ _ _ _); reflexivity.
Qed.

Lemma gcount_b2 b p : merge_sketches b = Ok p -> (exists e he hne me mne se sne, b = sketch_of e he hne me mne se sne) ->
  bd_n_event (bd_flush (snd p)) = bd_n_event b /\ bd_n_nonevent (bd_flush (snd p)) = bd_n_nonevent b /\
  bd_n_event (snd p) = bd_n_event b /\ bd_n_nonevent (snd p) = bd_n_nonevent b.
Proof.
  intros E (e & he & hne & me & mne & se & sne & ->). destruct p as [g b1]. apply merge_sketches_spec in E. destruct E as [_ ->].
  unfold bd_n_event, bd_n_nonevent, bd_flush, sketch_of. cbn [snd bd_e bd_ne bd_me bd_mne bd_se bd_sne].
  rewrite !gcount_flush, !count_build. auto.
Qed.

Definition pure_solver (solver : opt_solver) (f : bool) (n : Z) (a b : list Z) : list bool :=
  match solver f n a b with Ok l => l | Err _ => map (fun _ => true) a end.
Lemma pure_solver_ok solver f n : opt_ok solver -> solver_ok (pure_solver solver f n).
Proof.
  intros H a b L G. unfold pure_solver. destruct (solver f n a b) as [l|x] eqn:E; [eapply H; eassumption|].
  split; [apply map_length|]. clear - G. induction a as [|x a IH]; [cbn in G; lia|].
  destruct a as [|y a]; [reflexivity|]. destruct a as [|z a]; [reflexivity|]. apply IH. cbn [length]. lia.
Qed.

(** a successful solve publishes the result of the pure function [sk_solve] *)
Lemma n_solve_ok d solver m s : snd (n_solve d solver m s) = Ok tt ->
  (forall b, o_data s = Some b -> exists e he hne me mne se sne, b = sketch_of e he hne me mne se sne) ->
  exists b f fl, o_data s = Some b /\ o_adds s <> 0%nat /\ sk_solve d (pure_solver solver fl (bd_n b)) m b = Ok f /\
    let s' := fst (n_solve d solver m s) in
    o_adds s' = o_adds s /\ o_solves s' = S (o_solves s) /\ o_solved s' = true /\ o_splits s' = sf_splits f /\
    o_rows s' = (sf_nev f, sf_ev f) /\ o_table s' = (sf_splits f, (sf_nev f, sf_ev f)) /\
    o_stats s' = (S (o_solves s), (o_adds s, bd_n b)) :: o_stats s.
Proof.
  intros E B. destruct (n_solve d solver m s) as [s' r] eqn:Er. cbn [fst snd] in *. subst r.
  unfold n_solve in Er. destruct (o_adds s) as [|k] eqn:Ea; [discriminate|]. destruct (o_data s) as [b|]; [|discriminate].
  specialize (B b eq_refl). exists b.
  destruct (merge_sketches b) as [p|x] eqn:Em; [|discriminate]. destruct (gcount_b2 b p Em B) as (C1 & C2 & C3 & C4).
  destruct (quantiles _ _) as [t|x] eqn:Eq; [|discriminate].
  destruct (sk_prebins _ _ _ _) as [[[[splits nev] ev_]|x]|] eqn:Epr; try discriminate. cbn [fst snd o_flag o_adds] in Er.
  set (fl := o_flag s || _) in *.
  assert (En : bd_n (bd_flush (snd p)) = bd_n b) by (unfold bd_n; now rewrite C1, C2).
  rewrite En, C1, C2 in Er. cbn [bd_flush bd_se bd_me bd_sne bd_mne] in Er.
  assert (SK : forall f, sk_finish (pure_solver solver fl (bd_n b)) (snd p) splits nev ev_ = Ok f ->
    sk_solve d (pure_solver solver fl (bd_n b)) m b = Ok f).
  { intros f Hf. unfold sk_solve. rewrite Em. cbn [rbind]. rewrite Eq. cbn [rbind]. rewrite Epr. cbn [rbind fst snd]. exact Hf. }
  unfold sk_finish in SK. cbv zeta in SK. rewrite C3, C4 in SK. cbv zeta in Er.
  destruct (length nev <=? 1)%nat eqn:Ef.
  - destruct (bin_info_1 1 _ match splits with [] => [bd_n_nonevent b] | _ => nev end _ _ _) as [a|] eqn:E1; [|discriminate].
    destruct (bin_info_1 1 _ match splits with [] => [bd_n_event b] | _ => ev_ end _ _ _) as [c|] eqn:E2; [|discriminate].
    eexists _, fl. split; [reflexivity|]. split; [discriminate|]. split; [apply SK; reflexivity|]. injection Er as <-. cbn; auto 10.
  - destruct (solver fl (bd_n b) nev ev_) as [sol|y] eqn:Es; [|discriminate].
    assert (Ep : pure_solver solver fl (bd_n b) nev ev_ = sol) by (unfold pure_solver; now rewrite Es). rewrite Ep in SK.
    destruct (bin_info_1 1 sol match splits with [] => [bd_n_nonevent b] | _ => nev end _ _ _) as [a|] eqn:E1; [|discriminate].
    destruct (bin_info_1 1 sol match splits with [] => [bd_n_event b] | _ => ev_ end _ _ _) as [c|] eqn:E2; [|discriminate].
    eexists _, fl. split; [reflexivity|]. split; [discriminate|]. split; [apply SK; reflexivity|]. injection Er as <-. cbn. auto 10.
Qed.

Lemma sk_prebins_len d b : forall fuel splits splits' nev ev_, sk_prebins fuel d b splits = Some (Ok (splits', nev, ev_)) ->
  length nev = S (length splits') /\ length ev_ = S (length splits').
Proof.
  induction fuel as [|f IH]; intros splits splits' nev ev_ E; [discriminate|]. cbn [sk_prebins] in E.
  destruct (any _ && refines d).
  - destruct splits as [|a r]; [discriminate|]. eapply IH; exact E.
  - injection E as <- <- <-. rewrite !gk_bins_length. auto.
Qed.

(** a failed solve publishes nothing *)
Lemma n_solve_err d solver m s : opt_ok solver -> snd (n_solve d solver m s) <> Ok tt ->
  let s' := fst (n_solve d solver m s) in
  o_adds s' = o_adds s /\ o_solves s' = o_solves s /\ o_solved s' = o_solved s /\ o_splits s' = o_splits s /\
  o_rows s' = o_rows s /\ o_table s' = o_table s /\ o_stats s' = o_stats s.
Proof.
  intros Ho E. destruct (n_solve d solver m s) as [s' r] eqn:Er. cbn [fst snd] in *.
  unfold n_solve in Er. destruct (o_adds s) eqn:Ea; [injection Er as <- _; cbn; auto 10|].
  destruct (o_data s) as [b|]; [|injection Er as <- _; cbn; auto 10].
  destruct (merge_sketches b) as [p|x] eqn:Em; [|injection Er as <- _; cbn; auto 10].
  destruct (quantiles (fst p) (percentiles m)) as [t|x]; [|injection Er as <- _; cbn; auto 10].
  destruct (sk_prebins _ _ _ _) as [[[[splits nev] ev_]|x]|] eqn:Ep; try (injection Er as <- _; cbn; auto 10; fail).
  cbn [fst snd o_flag] in Er.
  destruct (sk_prebins_len _ _ _ _ _ _ _ Ep) as [L1 L2].
  destruct (length nev <=? 1)%nat eqn:Ef.
  - apply Nat.leb_le in Ef. destruct splits; [|cbn [length] in *; lia]. cbn in Er. injection Er as _ <-. now destruct E.
  - apply Nat.leb_gt in Ef. set (fl := o_flag s || _) in *.
    destruct (solver fl (bd_n (bd_flush (snd p))) nev ev_) as [sol|y] eqn:Es; [|injection Er as <- _; cbn; auto 10].
    assert (Le : length nev = length ev_) by lia. destruct (Ho _ _ _ _ _ Le Ef Es) as [S1 S2].
    assert (K : forall nn l x y, length sol = length nn -> bin_info_1 1 sol nn None l x = y -> exists z, y = Some z).
    { intros nn l x y Ln <-. unfold bin_info_1. destruct sol as [|b0 r0] eqn:Eso; [cbn in S1; lia|]. rewrite <- Eso in *.
      destruct (merge_loop_spec 0 sol nn) as (rr & -> & _); [exact Ln|]. cbn [option_map]. eauto. }
    destruct splits as [|s0 sr]; [cbn [length] in *; lia|].
    destruct (bin_info_1 1 sol nev _ _ _) as [a|] eqn:E1; [|destruct (K _ _ _ _ S1 E1); discriminate].
    destruct (bin_info_1 1 sol ev_ _ _ _) as [c|] eqn:E2; [|destruct (K _ _ _ _ (eq_trans S1 Le) E2); discriminate].
    injection Er as _ <-. now destruct E.
Qed.

(** ** whole histories *)
Section Hist.
Variables (e : Q) (d : divergence) (solver : opt_solver) (m : nat).
Notation obj := (object e d solver m).
Notation out := (outcome e d solver m).

Lemma obj_adds h : o_adds (obj h) = own_adds h.
Proof.
  unfold object. induction h as [|h IH [l|]|h IH|h IH o IHo]; cbn [run_obj own_adds]; auto.
  - unfold n_add. cbn [fst o_adds]. now rewrite IH.
  - rewrite <- IH. set (s := fst (run_obj _ _ _ _ _)). unfold n_solve. destruct (o_adds s) eqn:Ea; [exact Ea|].
    destruct (o_data s); [|cbn; congruence]. destruct (merge_sketches _); [|cbn; congruence]. destruct (quantiles _ _); [|cbn; congruence].
    destruct (sk_prebins _ _ _ _) as [[x|x]|]; try (cbn; congruence). cbv zeta.
    destruct (if (_ <=? _)%nat then _ else _); [|cbn; congruence].
    destruct (bin_info_1 _ _ _ _ _ _); [|cbn; congruence]. destruct (bin_info_1 _ _ _ _ _ _); cbn; congruence.
  - rewrite <- IH. unfold n_merge. destruct (o_data _); [|reflexivity]. destruct (o_data _); reflexivity.
Qed.

Lemma has_clean_nil : ~ has_clean [].
Proof. intros (r & v & [] & _). Qed.

Lemma obj_data h : clean_merges h ->
  match o_data (obj h) with
  | None => records h = [] /\ own_adds h = 0%nat
  | Some b => holds e (records h) (small_merges e h) b
  end.
Proof.
  unfold object. induction h as [|h IH [l|]|h IH|h IH o IHo]; cbn [run_obj own_adds records clean_merges small_merges]; intros C.
  - now cbn.
  - specialize (IH C). set (s := fst (run_obj _ _ _ _ _)) in *. unfold n_add. cbn [fst o_data].
    destruct (o_data s) as [b|]; [now apply holds_add|]. destruct IH as [-> _]. apply holds_add, holds_new.
  - specialize (IH C). set (s := fst (run_obj _ _ _ _ _)) in *. unfold n_add. cbn [fst o_data set_data].
    destruct (o_data s) as [b|]; [assumption|]. destruct IH as [-> _]. apply holds_new.
  - specialize (IH C). set (s := fst (run_obj _ _ _ _ _)) in *.
    destruct (n_solve_data d solver m s) as [->|(b & p & Eb & Em & H)]; [assumption|]. rewrite Eb in IH.
    destruct (holds_b1 _ _ _ _ _ IH Em) as [H1 H2]. destruct H as [->| ->]; assumption.
  - destruct C as (C & Co & K & Ko). specialize (IH C). specialize (IHo Co).
    set (s := fst (run_obj e d solver m h)) in *. set (s' := fst (run_obj e d solver m o)) in *. unfold n_merge.
    destruct (o_data s) as [b|]; [|destruct IH as [E _]; rewrite E in K; destruct (has_clean_nil K)].
    destruct (o_data s') as [c|]; [|destruct IHo as [E _]; rewrite E in Ko; destruct (has_clean_nil Ko)].
    destruct (holds_merge _ _ _ _ _ _ _ IH IHo K Ko) as (b' & -> & H). cbn [fst set_data o_data]. exact H.
Qed.

Lemma merge_outcome h o : clean_merges (SMerge h o) -> out (SMerge h o) = Ok tt.
Proof.
  intros (C & Co & K & Ko). pose proof (obj_data h C) as IH. pose proof (obj_data o Co) as IHo.
  unfold outcome. cbn [run_obj]. unfold object in *.
  set (s := fst (run_obj e d solver m h)) in *. set (s' := fst (run_obj e d solver m o)) in *. unfold n_merge.
  destruct (o_data s) as [b|]; [|destruct IH as [E _]; rewrite E in K; destruct (has_clean_nil K)].
  destruct (o_data s') as [c|]; [|destruct IHo as [E _]; rewrite E in Ko; destruct (has_clean_nil Ko)].
  destruct (holds_merge _ _ _ _ _ _ _ IH IHo K Ko) as (b' & -> & H). reflexivity.
Qed.

(** ** what is published *)
Lemma solve_ok_eq h : is_ok (out (SSolve h)) = true <-> snd (n_solve d solver m (obj h)) = Ok tt.
Proof. unfold outcome, object. cbn [run_obj]. destruct (snd _) as [[]|]; cbn; split; congruence. Qed.

Lemma holds_hist l sm b : holds e l sm b -> exists e he hne me mne se sne, b = sketch_of e he hne me mne se sne.
Proof. intros (he & hne & -> & _). eauto 10. Qed.

Lemma solve_good h : clean_merges h -> is_ok (out (SSolve h)) = true ->
  exists b f fl, o_data (obj h) = Some b /\ own_adds h <> 0%nat /\ sk_solve d (pure_solver solver fl (bd_n b)) m b = Ok f /\
    let s' := obj (SSolve h) in
    o_solves s' = S (o_solves (obj h)) /\ o_solved s' = true /\ o_splits s' = sf_splits f /\
    o_rows s' = (sf_nev f, sf_ev f) /\ o_table s' = (sf_splits f, (sf_nev f, sf_ev f)) /\
    o_stats s' = (S (o_solves (obj h)), (own_adds h, bd_n b)) :: o_stats (obj h).
Proof.
  intros C E. apply (proj1 (solve_ok_eq h)) in E.
  destruct (n_solve_ok d solver m (obj h) E) as (b & f & fl & E1 & E2 & E3 & _ & E4).
  { intros b Eb. pose proof (obj_data h C) as D. rewrite Eb in D. eapply holds_hist; exact D. }
  exists b, f, fl. rewrite obj_adds in *. auto.
Qed.

Lemma holds_n l sm b : holds e l sm b -> bd_n b = Z.of_nat (length l).
Proof.
  intros (he & hne & -> & P1 & P2 & _). unfold bd_n, bd_n_event, bd_n_nonevent, sketch_of. cbn [bd_e bd_ne bd_me bd_mne bd_se bd_sne].
  rewrite !count_build. unfold nvals. rewrite (Permutation_length P1), (Permutation_length P2), !clean_len.
  assert (Z.of_nat (length l) = countb (fun r => Bool.eqb (ry r) true) l + countb (fun r => Bool.eqb (ry r) false) l); [|lia].
  clear. induction l as [|r l IH]; [reflexivity|]. change (r :: l) with ([r] ++ l). rewrite !countb_app, app_length, Nat2Z.inj_add, IH.
  destruct r as [k []]; unfold countb; cbn [filter ry Bool.eqb length]; lia.
Qed.

Lemma published h : opt_ok solver -> clean_merges h ->
  match last_good e d solver m h with
  | None => o_solved (obj h) = false
  | Some h' => o_solved (obj h) = true /\ o_splits (obj h) = o_splits (obj (SSolve h')) /\ o_rows (obj h) = o_rows (obj (SSolve h')) /\
      o_table (obj h) = o_table (obj (SSolve h')) /\ is_ok (out (SSolve h')) = true /\ clean_merges h' /\ own_adds h' <> 0%nat
  end.
Proof.
  intros Ho. unfold object. induction h as [|h IH [l|]|h IH|h IH o IHo]; intros C; cbn [last_good].
  - reflexivity.
  - specialize (IH C). cbn [run_obj]. unfold n_add. cbn [fst o_solved o_splits o_rows o_table]. exact IH.
  - specialize (IH C). cbn [run_obj]. unfold n_add. cbn [fst o_solved o_splits o_rows o_table set_data]. exact IH.
  - specialize (IH C). destruct (is_ok (out (SSolve h))) eqn:E.
    + destruct (solve_good h C E) as (b & f & fl & E1 & E2 & E3 & E4 & E5 & _). fold (obj (SSolve h)). auto 10.
    + assert (E' : snd (n_solve d solver m (obj h)) <> Ok tt).
      { intros Q. apply (proj2 (solve_ok_eq h)) in Q. congruence. }
      destruct (n_solve_err d solver m (obj h) Ho E') as (_ & _ & A1 & A2 & A3 & A4 & _). cbn [run_obj]. fold (obj h).
      rewrite A1, A2, A3, A4. exact IH.
  - destruct C as (C & _). specialize (IH C). cbn [run_obj]. unfold n_merge.
    set (s := fst (run_obj e d solver m h)) in *. destruct (o_data s); [|exact IH]. destruct (o_data _); exact IH.
Qed.

Lemma stats_obj h : opt_ok solver -> clean_merges h ->
  o_solves (obj h) = length (good_solves e d solver m h) /\
  o_stats (obj h) = combine (rev (seq 1 (length (good_solves e d solver m h))))
                            (map (fun h' => (own_adds h', Z.of_nat (length (records h')))) (good_solves e d solver m h)).
Proof.
  intros Ho. unfold object. induction h as [|h IH [l|]|h IH|h IH o IHo]; intros C; cbn [good_solves].
  - split; reflexivity.
  - specialize (IH C). cbn [run_obj]. unfold n_add. cbn [fst o_stats o_solves]. exact IH.
  - specialize (IH C). cbn [run_obj]. unfold n_add. cbn [fst o_stats o_solves set_data]. exact IH.
  - specialize (IH C). destruct IH as [IH1 IH2]. destruct (is_ok (out (SSolve h))) eqn:E; cbn [app].
    + destruct (solve_good h C E) as (b & f & fl & E1 & E2 & E3 & E4 & _ & _ & _ & _ & E5). fold (obj (SSolve h)). fold (obj h) in IH1, IH2.
      rewrite E4, E5, IH1. split; [reflexivity|].
      pose proof (obj_data h C) as D. rewrite E1 in D. rewrite (holds_n _ _ _ D), IH2.
      cbn [length map]. rewrite seq_S, rev_app_distr. cbn [rev app combine Nat.add]. reflexivity.
    + assert (E' : snd (n_solve d solver m (obj h)) <> Ok tt).
      { intros Q. apply (proj2 (solve_ok_eq h)) in Q. congruence. }
      destruct (n_solve_err d solver m (obj h) Ho E') as (_ & A1 & _ & _ & _ & _ & A2). cbn [run_obj]. fold (obj h).
      rewrite A1, A2. auto.
  - destruct C as (C & _). specialize (IH C). cbn [run_obj]. unfold n_merge.
    set (s := fst (run_obj e d solver m h)) in *. destruct (o_data s); [|exact IH]. destruct (o_data _); exact IH.
Qed.
End Hist.
