(** C67: a multiclass target with solver="mip". The solver is trusted to return a 0/1 assignment satisfying the posted constraints
    ([mm_solved]); for the case of values only close to 0 or 1 see [C64_tolerance_refuted]. *)
From Coq Require Import List ZArith Bool Arith Lia Sorting QArith Reals Lra.
From Verif Require Import Model.Arr Model.Core Model.Metrics Model.CP Model.MIP Model.Multi Model.MultiMIP
  Spec.CoreSpec Spec.CPSpec Spec.CPFitSpec Spec.MIPSpec Spec.MultiSpec Spec.MultiMIPSpec Spec.ScaledSpec
  Proofs.ArrP Proofs.CoreP Proofs.MetricsP Proofs.CPP Proofs.CPC Proofs.CPTable Proofs.CPFinal Proofs.MIPP Proofs.MIPQ Proofs.MIPR Proofs.ScaledP Proofs.MetricsQ
  Proofs.MultiP Proofs.MultiFinal Proofs.MultiMIPP Props.CPProps Props.MultiProps.
Import ListNotations.
Open Scope Z_scope.

Lemma mm_groups solver sp fixed user splits0 rs f g X :
  nondecreasing splits0 -> m_solver_ok solver -> fit_multi solver sp fixed user splits0 rs = Some (Ok f) -> mm_solved f solver g X ->
  exists gs, let n := S (length (mp_splits (mf_prebins f))) in
  partition n gs /\ describes n gs X /\ length gs = S (length (mf_splits f)) /\
  (forall i s, nth_error (mp_splits (mf_prebins f)) i = Some s -> (exists a, In (a, i) gs) -> In s (mf_splits f)) /\
  forall c cl, nth_error (mf_classes f) c = Some cl -> exists ne ev,
    nth_error (mp_cols (mf_prebins f)) c = Some (ne, ev) /\ length ne = n /\ length ev = n /\
    pos_list ne /\ pos_list ev /\ class_rows f c = rows_of ne ev gs.
Proof.
  intros Hs Hok Hf (Hne & Hsol & HF). destruct HF as (A & B & C & _).
  apply (multi_groups_s solver sp fixed user splits0 rs f X Hs Hok Hf Hne); [now rewrite <- (mip_vector_01 _ X A)|].
  split; [exact A|]. split; [exact B|exact C].
Qed.
Lemma mm_cols_len solver sp fixed user splits0 rs f : fit_multi solver sp fixed user splits0 rs = Some (Ok f) -> mp_splits (mf_prebins f) <> [] ->
  length (mp_cols (mf_prebins f)) = length (mf_classes f).
Proof.
  intros Hf Hne. pose proof (fit_multi_inv _ _ _ _ _ _ _ Hf) as F.
  rewrite (rm_cols _ _ _ _ (mm_refined _ _ _ _ _ F) Hne), (mm_classes _ _ _ _ _ F). unfold class_cols. now rewrite map_length.
Qed.

(** Every class of the fitted table follows its trend exactly; the p-value, rate-difference and number-of-bins requests hold, and
    every split that survived the refinement and is marked as fixed is kept. *)
Theorem C67_requests_per_class : forall solver sp fixed user splits0 rs f g X,
  nondecreasing splits0 -> m_solver_ok solver ->
  fit_multi solver sp fixed user splits0 rs = Some (Ok f) -> mm_solved f solver g X ->
  within (mm_min_bins g) (mm_max_bins g) (Z.of_nat (S (length (mf_splits f)))) /\
  length (mm_trends g) = length (mf_classes f) /\
  (forall c t, nth_error (mm_trends g) c = Some t ->
    class_trend_holds t (class_rows f c) /\
    pvalue_ok (mm_pol g) (mm_test g) (class_rows f c) /\
    neighbours (apartR (mm_md g)) (class_rows f c)) /\
  (forall fx i s, mm_fixed g = Some fx -> nth_error fx i = Some true -> nth_error (mp_splits (mf_prebins f)) i = Some s -> In s (mf_splits f)).
Proof.
  intros * Hs Hok Hf HX. destruct (mm_groups _ _ _ _ _ _ _ _ _ Hs Hok Hf HX) as (gs & Hp & Hr & Hlg & Hkeep & Hcls). cbv zeta in *.
  pose proof (mm_cols_len _ _ _ _ _ _ _ Hf (proj1 HX)) as Lc.
  set (n := S (length (mp_splits (mf_prebins f)))) in *. assert (Hn : (0 < n)%nat) by (unfold n; lia).
  destruct HX as (Hne & Hsol & (B1 & B2 & B3 & B4 & B5 & B6)). fold n in B1, B2, B3, B4, B5, B6.
  split; [rewrite <- Hlg; now apply (min_max_bins_iff _ _ _ Hn Hp Hr)|].
  assert (Lt : length (mm_trends g) = length (mf_classes f)) by (apply Forall2_len in B5; congruence).
  split; [exact Lt|]. split.
  - intros c t Ht. destruct (nth_error (mf_classes f) c) as [cl|] eqn:Hc.
    2: { apply nth_error_None in Hc. assert (c < length (mm_trends g))%nat by (apply nth_error_Some; congruence). lia. }
    destruct (Hcls c cl Hc) as (ne & ev & Ec & L1 & L2 & P1 & P2 & ER).
    assert (HC : class_constrR n g X t (ne, ev)).
    { clear -B5 Ht Ec. revert c Ht Ec. induction B5 as [|a b la lb H B IH]; intros [|c] Ha Hb; cbn in *; try discriminate.
      - injection Ha as ->. injection Hb as ->. exact H.
      - eauto. }
    rewrite ER. rewrite <- L1 in *. apply (class_sound ne ev X gs ltac:(lia) P1 P2 Hn Hp Hr g t B4 B6 HC).
  - intros fx i s Ef Ei Es. apply (Hkeep i s Es).
    assert (i < n - 1)%nat by (assert (i < length (mp_splits (mf_prebins f)))%nat by (apply nth_error_Some; congruence); unfold n; lia).
    exact (proj1 (fixed_iff _ _ _ Hn Hp Hr (mm_fixed g)) B6 fx i Ef H Ei).
Qed.
Print Assumptions C67_requests_per_class.

Lemma mm_complete n cols g gs X : (0 < n)%nat ->
  (forall c, In c cols -> length (fst c) = n /\ length (snd c) = n /\ pos_list (fst c) /\ pos_list (snd c)) ->
  partition n gs -> describes n gs X ->
  (mm_md g = 0%R -> Forall (fun t => t <> TAscending /\ t <> TDescending) (mm_trends g)) ->
  within (mm_min_bins g) (mm_max_bins g) (Z.of_nat (length gs)) ->
  (forall f i, mm_fixed g = Some f -> (i < n - 1)%nat -> nth_error f i = Some true -> exists s, In (s, i) gs) ->
  Forall2 (fun t c => class_trend_holds t (rows_of (fst c) (snd c) gs) /\
     pvalue_ok (mm_pol g) (mm_test g) (rows_of (fst c) (snd c) gs) /\
     neighbours (apartR (mm_md g)) (rows_of (fst c) (snd c) gs)) (mm_trends g) cols ->
  mm_feasible n cols g X.
Proof.
  intros Hn Hc Hp Hr Hmd Hb Hfx HF.
  destruct (represents_structural _ _ _ Hp Hr) as (B1 & B2 & B3). unfold mm_feasible. do 3 (split; [assumption|]).
  split; [now apply (min_max_bins_iff _ _ _ Hn Hp Hr)|]. split; [|now apply (fixed_iff _ _ _ Hn Hp Hr)].
  clear B1 B2 B3. assert (Hm : Forall (fun t => (t = TAscending \/ t = TDescending) -> mm_md g <> 0%R) (mm_trends g)).
  { apply Forall_forall. intros t Ht D E. specialize (Hmd E). rewrite Forall_forall in Hmd. destruct (Hmd t Ht). destruct D; contradiction. }
  clear Hmd. revert Hm Hc. induction HF as [|t c ts cs (T & P & D) HF IH]; intros Hm Hc; constructor.
  - destruct (Hc c (or_introl eq_refl)) as (L1 & L2 & P1 & P2). destruct c as [ne ev]. cbn [fst snd] in *. rewrite <- L1 in *. inversion Hm as [|? ? M1 M2]; subst.
    apply (class_complete ne ev X gs); auto; congruence.
  - inversion Hm; subst. apply IH; auto. intros c' H'. apply Hc. now right.
Qed.
(** Completeness: a grouping of the prebins in which every class meets its request can be chosen by the solver (ascending and
    descending only with min_event_rate_diff different from 0: see [C67_preprocessing_rejects_valid_refuted]). *)
Theorem C67_valid_binning_feasible : forall n cols g gs, (0 < n)%nat ->
  (forall c, In c cols -> length (fst c) = n /\ length (snd c) = n /\ (forall a, In a (fst c) -> 0 < a) /\ (forall a, In a (snd c) -> 0 < a)) ->
  partition n gs ->
  (mm_md g = 0%R -> Forall (fun t => t <> TAscending /\ t <> TDescending) (mm_trends g)) ->
  within (mm_min_bins g) (mm_max_bins g) (Z.of_nat (length gs)) ->
  (forall f i, mm_fixed g = Some f -> (i < n - 1)%nat -> nth_error f i = Some true -> exists s, In (s, i) gs) ->
  Forall2 (fun t c => class_trend_holds t (rows_of (fst c) (snd c) gs) /\
     pvalue_ok (mm_pol g) (mm_test g) (rows_of (fst c) (snd c) gs) /\
     neighbours (apartR (mm_md g)) (rows_of (fst c) (snd c) gs)) (mm_trends g) cols ->
  exists X, describes n gs X /\ mm_feasible n cols g X.
Proof.
  intros n cols g gs Hn Hc Hp Hmd Hb Hfx HF. exists (mat_of gs). assert (Hr := mat_of_represents n gs). split; [exact Hr|]. now apply mm_complete with (gs := gs).
Qed.
Print Assumptions C67_valid_binning_feasible.

Lemma mm_objective_rows n ne ev X gs : partition n gs -> describes n gs X -> (n <= length ne)%nat -> (n <= length ev)%nat ->
  objectiveR n (div_matR (div_term IV ne ev) ne ev) X = rsum (map (bin_divergence IV (zsum ne, zsum ev)) (rows_of ne ev gs)).
Proof.
  intros Hp Hr L1 L2. rewrite (objectiveR_groups n gs X Hp Hr). unfold rows_of. rewrite map_map. apply rsum_ext.
  intros [s e] Hin. pose proof (chain_in _ _ _ _ _ Hp Hin). unfold div_matR. cbn [fst snd]. rewrite !cum_mat_gsum by lia.
  exact (div_of_spec IV (zsum ne, zsum ev) (gsum ne (s, e), gsum ev (s, e))).
Qed.
Lemma gsum_chain (l : list Z) : forall gs a m, chain a m gs -> (m <= length l)%nat -> zsum (map (gsum l) gs) = zsum (firstn (m - a) (skipn a l)).
Proof.
  intros gs a m H. induction H as [m|s e m gs Hse Hch IH]; intros Hm.
  - rewrite Nat.sub_diag. reflexivity.
  - pose proof (chain_le _ _ _ Hch) as Hle. cbn [map zsum]. rewrite IH by exact Hm. unfold gsum, slice. cbn [fst snd].
    replace (m - s)%nat with ((S e - s) + (m - S e))%nat by lia. rewrite <- zsum_app. f_equal.
    assert (E : forall (A : Type) a b (l : list A), firstn (a + b) l = firstn a l ++ firstn b (skipn a l))
      by (clear; intros A a; induction a as [|a IH]; intros b [|x l]; cbn; try reflexivity; [now rewrite firstn_nil|now rewrite IH]).
    rewrite E. f_equal. rewrite skipn_skipn_add. f_equal. f_equal. lia.
Qed.
Lemma rows_totals n ne ev gs : partition n gs -> length ne = n -> length ev = n ->
  zsum (map fst (rows_of ne ev gs)) = zsum ne /\ zsum (map snd (rows_of ne ev gs)) = zsum ev.
Proof.
  intros Hp L1 L2. unfold rows_of. rewrite !map_map. cbn [fst snd].
  assert (T : forall l, length l = n -> zsum (map (gsum l) gs) = zsum l)
    by (intros l Hl; rewrite (gsum_chain l gs 0 n Hp) by lia; rewrite Nat.sub_0_r; cbn [skipn]; now rewrite firstn_all2 by lia).
  split; [exact (T ne L1)|exact (T ev L2)].
Qed.

(** Optimality: the objective is the sum of the information values of the classes, and when the solver returns an assignment of
    largest objective, no grouping in which every class meets its request has a larger sum. *)
Theorem C67_optimal_divergence : forall solver sp fixed user splits0 rs f g X,
  nondecreasing splits0 -> m_solver_ok solver ->
  fit_multi solver sp fixed user splits0 rs = Some (Ok f) -> mm_solved f solver g X ->
  let n := S (length (mp_splits (mf_prebins f))) in let cols := mp_cols (mf_prebins f) in
  let iv := fun rows => rsum (map (bin_divergence IV (zsum (map fst rows), zsum (map snd rows))) rows) in
  let mine := map (class_rows f) (seq 0 (length (mf_classes f))) in
  mm_objective n cols X = rsum (map iv mine) /\
  ((forall X', mm_feasible n cols g X' -> (mm_objective n cols X' <= mm_objective n cols X)%R) ->
   (mm_md g = 0%R -> Forall (fun t => t <> TAscending /\ t <> TDescending) (mm_trends g)) ->
   forall gs, partition n gs ->
   within (mm_min_bins g) (mm_max_bins g) (Z.of_nat (length gs)) ->
   (forall fx i, mm_fixed g = Some fx -> (i < n - 1)%nat -> nth_error fx i = Some true -> exists s, In (s, i) gs) ->
   Forall2 (fun t c => class_trend_holds t (rows_of (fst c) (snd c) gs) /\
      pvalue_ok (mm_pol g) (mm_test g) (rows_of (fst c) (snd c) gs) /\
      neighbours (apartR (mm_md g)) (rows_of (fst c) (snd c) gs)) (mm_trends g) cols ->
   (rsum (map iv (map (fun c => rows_of (fst c) (snd c) gs) cols)) <= rsum (map iv mine))%R).
Proof.
  intros * Hs Hok Hf HX n cols iv mine. destruct (mm_groups _ _ _ _ _ _ _ _ _ Hs Hok Hf HX) as (gs0 & HG). cbv zeta in HG.
  destruct HG as (Hp0 & Hr0 & Hlg & _ & Hcls). change (S (length (mp_splits (mf_prebins f)))) with n in Hp0, Hr0, Hcls. change (mp_cols (mf_prebins f)) with cols in Hcls.
  pose proof (mm_cols_len _ _ _ _ _ _ _ Hf (proj1 HX)) as Lc. change (mp_cols (mf_prebins f)) with cols in Lc.
  assert (Hn : (0 < n)%nat) by (unfold n; lia).
  assert (HC : forall c, In c cols -> length (fst c) = n /\ length (snd c) = n /\ (forall a, In a (fst c) -> 0 < a) /\ (forall a, In a (snd c) -> 0 < a)).
  { intros c Hc. apply In_nth_error in Hc as (i & Hi). assert (i < length (mf_classes f))%nat by (rewrite <- Lc; apply nth_error_Some; congruence).
    destruct (nth_error (mf_classes f) i) as [cl|] eqn:Ec; [|apply nth_error_None in Ec; lia].
    destruct (Hcls i cl Ec) as (ne & ev & E & A1 & A2 & A3 & A4 & _). rewrite Hi in E. injection E as ->. auto. }
  assert (OB : forall hs Y, partition n hs -> describes n hs Y -> mm_objective n cols Y = rsum (map iv (map (fun c => rows_of (fst c) (snd c) hs) cols))).
  { intros hs Y Hp Hr. unfold mm_objective. rewrite map_map. apply rsum_ext. intros c Hc. destruct (HC c Hc) as (L1 & L2 & _).
    unfold iv. destruct (rows_totals n (fst c) (snd c) hs Hp L1 L2) as [-> ->]. apply mm_objective_rows; auto; lia. }
  assert (EM : mine = map (fun c => rows_of (fst c) (snd c) gs0) cols).
  { unfold mine. apply nth_error_ext. intros c. rewrite !nth_error_map. destruct (nth_error (mf_classes f) c) as [cl|] eqn:Ec.
    - destruct (Hcls c cl Ec) as (ne & ev & En & _ & _ & _ & _ & ER). rewrite En. assert (Hc : (c < length (mf_classes f))%nat) by (apply nth_error_Some; congruence).
      rewrite (nth_error_nth' _ 0%nat) by (rewrite seq_length; exact Hc). rewrite seq_nth by exact Hc. cbn [option_map fst snd Nat.add]. now rewrite ER.
    - apply nth_error_None in Ec. rewrite (proj2 (nth_error_None cols c)) by lia. rewrite (proj2 (nth_error_None (seq _ _) c)) by (rewrite seq_length; lia). reflexivity. }
  split; [rewrite EM; now apply OB|]. intros Hopt Hmd gs Hp Hb Hfx HF.
  destruct (C67_valid_binning_feasible n cols g gs Hn HC Hp Hmd Hb Hfx HF) as (X' & Hr' & HF').
  rewrite EM, <- (OB gs X' Hp Hr'), <- (OB gs0 X Hp0 Hr0). now apply Hopt.
Qed.
Print Assumptions C67_optimal_divergence.

(** ** A concrete fit (the data of [C29_hyps_met]) *)
Definition mm_g ts : mmip_cfg := {| mm_trends := ts; mm_min_bins := Some 2; mm_max_bins := None; mm_fixed := Some [true; false];
  mm_pol := PVNone; mm_test := fun _ _ => false; mm_md := 0%R |}.
Lemma mm_valley_feasible ts : ts = [TValley; TNone; TPeak] \/ ts = [TPeakHeuristic 1; TNone; TNone] \/ ts = [TConcave; TNone; TNone] ->
  mm_feasible 3 mx_cols (mm_g ts) (mat_of mx_gs).
Proof.
  intros Hts. assert (HN : forall rows, neighbours (apartR 0) rows).
  { intros rows. induction rows as [|a [|b rows] IH]; cbn [neighbours]; auto. split; [apply Rabs_pos|exact IH]. }
  apply mm_complete with (gs := mx_gs).
    - lia.
    - intros c [<-|[<-|[<-|[]]]]; (split; [reflexivity|]); (split; [reflexivity|]); split; intros a Ha; cbn [fst snd In] in Ha; intuition lia.
    - apply mx_partition.
    - apply mat_of_represents.
    - intros _. destruct Hts as [-> | [-> | ->]]; repeat constructor; discriminate.
    - split; intros a [=]; subst; cbn; lia.
    - intros f i [= <-] Hi Hf. destruct i as [|[|i]]; cbn in Hf; try discriminate; [exists 0%nat; cbn; tauto|destruct i; discriminate].
    - destruct Hts as [-> | [-> | ->]]; cbn [mm_trends mm_g mm_pol mm_test mm_md];
        repeat (apply Forall2_cons; [split; [|split; [exact I|apply HN]]|]); try apply Forall2_nil;
        cbn [class_trend_holds trend_holds]; try exact I; cbn [rows_of map mx_gs fst snd mx_cols].
      + exists [(2, 2); (2, 1)], [(2, 2)]. split; [reflexivity|]. split; repeat constructor; unfold rate_ge, rate; vm_compute; discriminate.
      + exists [(3, 1); (2, 1)], [(3, 1)]. split; [reflexivity|]. split; repeat constructor; unfold rate_le, rate; vm_compute; discriminate.
Qed.
Example C67_hyps_met : exists f, mx_fit = Some (Ok f) /\ mf_splits f = [2; 4] /\ mf_classes f = [0; 1; 2] /\
  mm_solved f mx_solver (mm_g [TValley; TNone; TPeak]) (mat_of mx_gs) /\
  class_rows f 0 = [(2, 2); (2, 1); (2, 2)].
Proof.
  destruct mx_fit as [[f|]|] eqn:E; [|exfalso; vm_compute in E; discriminate E|exfalso; vm_compute in E; discriminate E].
  assert (Ef : mf_splits f = [2; 4] /\ mf_classes f = [0; 1; 2] /\ mp_cols (mf_prebins f) = mx_cols /\ mp_splits (mf_prebins f) = [2; 4] /\
     class_rows f 0 = [(2, 2); (2, 1); (2, 2)]) by (vm_compute in E; injection E as <-; repeat split; reflexivity).
  destruct Ef as (E1 & E2 & E3 & E4 & E5). exists f. do 3 (split; [assumption || reflexivity|]). split; [|exact E5].
  unfold mm_solved. cbv zeta. rewrite E3, E4. split; [discriminate|]. cbn [length].
  pose proof (mm_valley_feasible [TValley; TNone; TPeak] (or_introl eq_refl)) as HF. split; [|exact HF].
  rewrite mip_vector_01 by apply HF. reflexivity.
Qed.

(** A heuristic trend requested for a class (also what "auto_heuristic" resolves to), or a concave / convex one, is accepted and
    ignored. *)
Theorem C67_heuristic_ignored_refuted : exists solver rs f g X tc,
  m_solver_ok solver /\ fit_multi solver SpNone None None [2; 4] rs = Some (Ok f) /\ mm_solved f solver g X /\
  nth_error (mm_trends g) 0 = Some (TPeakHeuristic tc) /\ ~ trend_holds (TPeakHeuristic tc) (class_rows f 0).
Proof.
  exists mx_solver, (firstn 11 mx_rs). destruct (fit_multi mx_solver SpNone None None [2; 4] (firstn 11 mx_rs)) as [[f|]|] eqn:E;
    [|exfalso; vm_compute in E; discriminate E|exfalso; vm_compute in E; discriminate E].
  assert (Ef : mp_cols (mf_prebins f) = mx_cols /\ mp_splits (mf_prebins f) = [2; 4] /\
     class_rows f 0 = [(2, 2); (2, 1); (2, 2)]) by (vm_compute in E; injection E as <-; repeat split; reflexivity).
  destruct Ef as (E3 & E4 & E5). exists f, (mm_g [TPeakHeuristic 1; TNone; TNone]), (mat_of mx_gs), 1%nat.
  split; [apply mx_solver_ok|]. split; [reflexivity|]. split; [|split; [reflexivity|]].
  - unfold mm_solved. cbv zeta. rewrite E3, E4. split; [discriminate|]. cbn [length].
    pose proof (mm_valley_feasible [TPeakHeuristic 1; TNone; TNone] (or_intror (or_introl eq_refl))) as HF. split; [|exact HF].
    rewrite mip_vector_01 by apply HF. reflexivity.
  - rewrite E5. cbn [trend_holds]. intros (l1 & l2 & El & H1 & H2).
    assert (N1 : forall r, ~ all_pairs rate_le ((2, 2) :: (2, 1) :: r)).
    { intros r H. inversion H as [|? ? Ha _]; subst. inversion Ha as [|? ? Hb _]; subst. vm_compute in Hb. now apply Hb. }
    assert (N2 : ~ all_pairs (fun a b => rate_le b a) [(2, 1); (2, 2)]).
    { intros H. inversion H as [|? ? Ha _]; subst. inversion Ha as [|? ? Hb _]; subst. vm_compute in Hb. now apply Hb. }
    destruct l1 as [|a [|b l1]]; cbn [app] in El; [subst l2|injection El as <- <-|injection El as <- <- El].
    + apply N2. inversion H2; assumption.
    + exact (N2 H2).
    + exact (N1 _ H1).
Qed.
Print Assumptions C67_heuristic_ignored_refuted.
Theorem C67_concave_ignored_refuted : exists solver rs f g X,
  m_solver_ok solver /\ fit_multi solver SpNone None None [2; 4] rs = Some (Ok f) /\ mm_solved f solver g X /\
  nth_error (mm_trends g) 0 = Some TConcave /\ ~ trend_holds TConcave (class_rows f 0).
Proof.
  exists mx_solver, (firstn 11 mx_rs). destruct (fit_multi mx_solver SpNone None None [2; 4] (firstn 11 mx_rs)) as [[f|]|] eqn:E;
    [|exfalso; vm_compute in E; discriminate E|exfalso; vm_compute in E; discriminate E].
  assert (Ef : mp_cols (mf_prebins f) = mx_cols /\ mp_splits (mf_prebins f) = [2; 4] /\
     class_rows f 0 = [(2, 2); (2, 1); (2, 2)]) by (vm_compute in E; injection E as <-; repeat split; reflexivity).
  destruct Ef as (E3 & E4 & E5). exists f, (mm_g [TConcave; TNone; TNone]), (mat_of mx_gs).
  split; [apply mx_solver_ok|]. split; [reflexivity|]. split; [|split; [reflexivity|]].
  - unfold mm_solved. cbv zeta. rewrite E3, E4. split; [discriminate|]. cbn [length].
    pose proof (mm_valley_feasible [TConcave; TNone; TNone] (or_intror (or_intror eq_refl))) as HF. split; [|exact HF].
    rewrite mip_vector_01 by apply HF. reflexivity.
  - rewrite E5. cbn [trend_holds]. intros H. inversion H as [|? ? Ha _]; subst. inversion Ha as [|? ? Hb _]; subst.
    inversion Hb as [|? ? Hc _]; subst. vm_compute in Hc. now apply Hc.
Qed.
Print Assumptions C67_concave_ignored_refuted.

(** With min_event_rate_diff = 0 (the default), ascending for a class rejects a grouping with increasing rates (0.2, 0.55). *)
Theorem C67_preprocessing_rejects_valid_refuted :
  let gs := [(0, 1); (2, 3)]%nat in let cols := [(ex15_ne, ex15_ev)] in
  let g := {| mm_trends := [TAscending]; mm_min_bins := None; mm_max_bins := None; mm_fixed := None; mm_pol := PVNone; mm_test := fun _ _ => false; mm_md := 0%R |} in
  partition 4 gs /\ class_trend_holds TAscending (rows_of ex15_ne ex15_ev gs) /\ neighbours (apartR 0) (rows_of ex15_ne ex15_ev gs) /\
  (forall X, describes 4 gs X -> ~ mm_feasible 4 cols g X).
Proof.
  intros gs cols g. assert (Hp : partition 4 gs) by repeat constructor. split; [exact Hp|]. split; [|split].
  - repeat constructor; unfold rate_le, rate; vm_compute; discriminate.
  - cbn. split; [apply Rabs_pos|exact I].
  - intros X Hr (_ & _ & _ & _ & HF & _). inversion HF as [|? ? ? ? HC _]; subst. destruct HC as ((_ & Ht) & _).
    destruct (Ht ltac:(unfold is0R; cbn [mm_md g]; destruct (Req_EM_T 0 0); [reflexivity|contradiction]) 1%nat ltac:(lia) ltac:(lia)) as [E _].
    + unfold rate_matR. cbn -[IZR]. lra.
    + rewrite (diag1 4 gs X Hp Hr 0 1) in E by (cbn; tauto). discriminate.
Qed.
Print Assumptions C67_preprocessing_rejects_valid_refuted.
