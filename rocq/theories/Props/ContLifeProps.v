(** C82: a ContinuousOptimalBinning object over any history of calls. *)
From Coq Require Import List ZArith QArith Bool Arith Lia.
From Verif Require Import Model.Arr Model.Core Model.CP Model.Cont Model.Lifecycle Model.ContLife
  Spec.CoreSpec Spec.CPSpec Spec.CPFitSpec Spec.ContSpec Spec.ContLifeSpec
  Proofs.ArrP Proofs.CoreP Proofs.FitP Proofs.CoreFinal Proofs.LifeP Proofs.LifeR Proofs.ContP Proofs.ContC Proofs.ContFinal
  Proofs.ContLifeP Proofs.ContLifeQ Props.ContProps.
Import ListNotations.
Open Scope Z_scope.

(** Every call that needs a fitted object raises NotFittedError exactly until a fit returned normally or read_json was called. *)
Theorem C82_not_fitted_iff : forall e user fixed fs h w outs c,
  cexec e (cnew user fixed, fs) h = (w, outs) -> c_needs_fit c ->
  (snd (cstep e w c) = Err NotFitted <-> ~ c_succeeded c_is_fit h outs /\ ~ c_called c_is_read h).
Proof. exact c_not_fitted_iff. Qed.
Print Assumptions C82_not_fitted_iff.

(** fit on an object with any history raises what it raises on a new object with the same parameters; when it returns,
    transform, splits and status answer as on the new object, and the two tables agree except possibly in Std, Min and Max
    of the Missing row. If the data have a missing record, every further history of calls (information() aside) answers the same. *)
Theorem C82_fit_forgets_history : forall e user0 fixed0 fs0 h0 w outs d o1 r1 o2 r2,
  cexec e (cnew user0 fixed0, fs0) h0 = (w, outs) -> co_fixed (fst w) = None ->
  cfit e d (fst w) = (o1, r1) -> cfit e d (cnew (co_user (fst w)) None) = (o2, r2) ->
  r1 = r2 /\
  (r1 = Ok tt ->
    (forall fs c, c_basic c -> snd (cstep e (o1, fs) c) = snd (cstep e (o2, fs) c)) /\
    (exists t1 t2, snd (cstep e (o1, fs0) CTable) = Ok (CVTable (Some t1)) /\ snd (cstep e (o2, fs0) CTable) = Ok (CVTable (Some t2)) /\
       ct_splits t1 = ct_splits t2 /\ ct_special t1 = ct_special t2 /\ ct_min t1 = ct_min t2 /\ ct_max t1 = ct_max t2 /\
       ct_user t1 = ct_user t2 /\ same_but_missing (ct_rows t1) (ct_rows t2)) /\
    (missing_records d <> [] ->
       forall fs h, ~ In CInformation h -> snd (cexec e (o1, fs) h) = snd (cexec e (o2, fs) h))).
Proof.
  intros e user0 fixed0 fs0 h0 w outs d o1 r1 o2 r2 _ FX F1 F2.
  destruct (c_refit e (fst w) d o1 r1 o2 r2 FX F1 F2) as (A & _ & _ & _ & B). split; [exact A|]. intros K. subst r2.
  destruct (B K) as (B1 & (t1 & t2 & T1 & T2 & SB & E) & B3). rewrite K in F1, F2.
  destruct (cfit_fitted _ _ _ _ _ F1) as [[_ L1]|[N _]]; [|contradiction N; reflexivity].
  destruct (cfit_fitted _ _ _ _ _ F2) as [[_ L2]|[N _]]; [|contradiction N; reflexivity].
  split; [exact B1|]. split; [|intros M; apply B3; left; exact M].
  exists t1, t2. cbn [cstep snd]. rewrite L1, L2, T1, T2. split; [reflexivity|]. split; [reflexivity|].
  rewrite E. cbn. do 5 (split; [reflexivity|]). exact SB.
Qed.
Print Assumptions C82_fit_forgets_history.

(** The exact rule for Std, Min and Max of the Missing row when every fit of the history returned normally: they describe
    the missing records of the last data set that had any, which need not be the one just fitted. *)
Theorem C82_missing_row_history : forall e user fixed fs h w outs d o1,
  cexec e (cnew user fixed, fs) h = (w, outs) -> all_fits_ok h outs -> cfit e d (fst w) = (o1, Ok tt) ->
  exists t rows row, co_table o1 = Some t /\ ct_rows t = rows ++ [row] /\
    r_n row = zsum (map k_w (missing_records d)) /\ describes (last_missing (fit_data h ++ [d])) row.
Proof.
  intros e user fixed fs h w outs d o1 H A F. destruct (cfit_ok_table _ _ _ _ F) as (t & rows & T & R & _).
  exists t, rows, (mrow (co_old (fst w)) d). split; [exact T|]. split; [exact R|]. split; [reflexivity|].
  rewrite last_missing_snoc.
  assert (O := cexec_old e h _ _ _ [] H A eq_refl). destruct (missing_records d) as [|r l] eqn:EM.
  - rewrite O. assert (E : match last_missing (fit_data h) with [] => [] | m :: l => m :: l end = last_missing (fit_data h)).
    { destruct (last_missing (fit_data h)); reflexivity. }
    rewrite E. apply describes_stale. exact EM.
  - rewrite <- EM. apply describes_own. rewrite EM. discriminate.
Qed.
Print Assumptions C82_missing_row_history.

(** With failed fits in the history too: the three entries describe the missing records of the data just fitted or, if it has none,
    of the data of some earlier fit (possibly a failed one), or are NaN. *)
Theorem C82_missing_row_any_history : forall e user fixed fs h w outs d o1,
  cexec e (cnew user fixed, fs) h = (w, outs) -> cfit e d (fst w) = (o1, Ok tt) ->
  exists t rows row l, co_table o1 = Some t /\ ct_rows t = rows ++ [row] /\ describes l row /\
    (missing_records d <> [] -> l = missing_records d) /\
    (l = [] \/ exists d', In (CFit d') (h ++ [CFit d]) /\ l = missing_records d').
Proof.
  intros e user fixed fs h w outs d o1 H F. destruct (cfit_ok_table _ _ _ _ F) as (t & rows & T & R & _).
  destruct (cexec_old_any e h _ _ _ [] H eq_refl) as (l & O & L).
  destruct (missing_records d) as [|r m] eqn:EM.
  - exists t, rows, (mrow (co_old (fst w)) d), l. split; [exact T|]. split; [exact R|].
    split; [rewrite O; apply describes_stale; exact EM|]. split; [intros N; contradiction N; reflexivity|].
    destruct L as [->|(d' & I & ->)]; [left; reflexivity|]. right. exists d'. split; [apply in_or_app; left; exact I|reflexivity].
  - exists t, rows, (mrow (co_old (fst w)) d), (missing_records d). split; [exact T|]. split; [exact R|].
    split; [apply describes_own; rewrite EM; discriminate|]. split; [intros _; exact EM|].
    right. exists d. split; [apply in_or_app; right; left; reflexivity|reflexivity].
Qed.
Print Assumptions C82_missing_row_any_history.

(** After a successful fit, whatever happened before: row k of the table reports exactly the records of bin k of the data just
    fitted, and transform(metric="mean") maps a clean value to their weighted mean. *)
Theorem C82_rows_after_any_history : forall e o d o1, c_answers_fit e -> c_prebin_sorted e ->
  cfit e d o = (o1, Ok tt) ->
  exists t, co_table o1 = Some t /\ nondecreasing (ct_splits t) /\
    forall k p, (k <= length (ct_splits t))%nat -> (forall r, p r = true <-> in_row (ce_special e) (ct_splits t) k r) ->
      (exists row, nth_error (ct_rows t) k = Some row /\ filter p (cd_recs d) <> [] /\ row_exact row (filter p (cd_recs d))) /\
      ((forall r, In r (cd_recs d) -> 0 < k_w r) ->
       forall ms mm z, ~ In (XNum z) (flat_codes (ce_special e)) -> in_bin_i (ct_splits t) k z ->
         ctransform e o1 (CMean ms mm) [XNum z] =
           Ok (CAMean [Some (inject_Z (zsum (map wtarget (filter p (cd_recs d)))) / inject_Z (zsum (map k_w (filter p (cd_recs d)))))%Q])).
Proof.
  intros e o d o1 AF PS F.
  destruct (cfit_ok_table _ _ _ _ F) as (t & rows & T & R & SP & RW & (fx & n & f0 & s0 & ND & L) & _ & _ & FT & _).
  destruct (L (co_old o)) as (f & FC & FS & FR). specialize (ND PS). pose proof (csolver_ok e fx n AF) as SO.
  destruct (C27_rows_exact _ _ _ _ _ _ _ _ ND SO FC) as [K1 K2]. rewrite FS in K1, K2. rewrite FR, <- R in K2.
  exists t. split; [exact T|]. split; [exact K1|]. intros k p Hk Hp. split; [exact (K2 k p Hk Hp)|].
  intros W ms mm z NI B.
  assert (TM := C27_transform_is_bin_mean _ _ _ _ _ _ _ f ms mm (Some 0%Q) z k p ND SO W FC NI).
  rewrite FS in TM. specialize (TM B Hp). unfold transform_mean in TM. rewrite FS, FR, <- R in TM.
  unfold ctransform. rewrite FT, SP, RW. cbn [negb map all_res]. rewrite TM. reflexivity.
Qed.
Print Assumptions C82_rows_after_any_history.

(** information(): the number of refinements is that of a fit of a new object plus what the object had counted before. *)
Theorem C82_refinement_count : forall e o d o1 r1 o2 r2, co_fixed o = None ->
  cfit e d o = (o1, r1) -> cfit e d (cnew (co_user o) None) = (o2, r2) -> co_nref o1 = (co_nref o + co_nref o2)%nat.
Proof. intros e o d o1 r1 o2 r2 FX F1 F2. apply (c_refit e o d o1 r1 o2 r2 FX F1 F2). Qed.
Print Assumptions C82_refinement_count.

(** A fit that raises leaves every answer unchanged, provided the data have a clean record. *)
Theorem C82_failed_refit_keeps_results_partial : forall e d o o' k, c_answers_fit e -> c_has_clean e d ->
  cfit e d o = (o', Err k) -> c_same_answers e o o'.
Proof. exact c_failed. Qed.
Print Assumptions C82_failed_refit_keeps_results_partial.

(** to_json then read_json restores the table, but transform does not use it. *)
Theorem C82_json_round_trip : forall o fs p fs1 o2, cto_json o fs p = (fs1, Ok tt) ->
  exists t o3 t', co_table o = Some t /\ cread_json o2 fs1 p = (o3, Ok tt) /\ co_table o3 = Some t' /\ c_same_contents t t'.
Proof. exact c_round_trip. Qed.
Print Assumptions C82_json_round_trip.

Lemma never_fit_splits e h : forall w w' outs, cexec e w h = (w', outs) -> ~ c_called c_is_fit h ->
  co_splits (fst w') = co_splits (fst w).
Proof.
  induction h as [|c h IH]; intros w w' outs H N; [injection H as <- <-; reflexivity|].
  apply cexec_cons in H. destruct H as (w1 & v & l & S & E & ->). rewrite c_called_cons in N.
  rewrite (IH _ _ _ E); [|tauto]. clear IH E. destruct w as [o fs]. cbn [fst].
  assert (OT : forall f, c_on_table (o, fs) f = (w1, v) -> co_splits (fst w1) = co_splits o).
  { intros f. unfold c_on_table. cbn [fst snd]. destruct (negb (co_fitted o)); [intros K; injection K as <- <-; reflexivity|].
    destruct (co_table o) as [t|]; [|intros K; injection K as <- <-; reflexivity]. destruct (f t). intros K; injection K as <- <-; reflexivity. }
  destruct c; cbn [cstep] in S; try (injection S as <- <-; reflexivity); try (exact (OT _ S)).
  - destruct N. left. exists d. reflexivity.
  - destruct (cto_json o fs p). injection S as <- <-. reflexivity.
  - unfold cread_json in S. destruct (fs p) as [[]|]; injection S as <- <-; reflexivity.
Qed.
Theorem C82_transform_ignores_file : forall e user fixed fs0 h o fs outs p o1 r m xs,
  cexec e (cnew user fixed, fs0) h = ((o, fs), outs) -> cread_json o fs p = (o1, r) ->
  (~ c_called c_is_fit h -> ctransform e o1 m xs = Err TypeError) /\
  (co_fitted o = true -> ctransform e o1 m xs = ctransform e o m xs).
Proof.
  intros e user fixed fs0 h o fs outs p o1 r m xs H R. pose proof (cread_fitted _ _ _ _ _ R) as FT.
  assert (E : co_splits o1 = co_splits o /\ co_rows o1 = co_rows o).
  { unfold cread_json in R. destruct (fs p) as [[j|]|]; injection R as <- <-; split; reflexivity. }
  destruct E as [E1 E2]. split.
  - intros N. pose proof (never_fit_splits _ _ _ _ _ H N) as S. cbn [fst cnew co_splits] in S.
    unfold ctransform. rewrite FT, E1, S. reflexivity.
  - intros F. unfold ctransform. rewrite FT, F, E1, E2. reflexivity.
Qed.
Print Assumptions C82_transform_ignores_file.

(** ** Concrete histories *)
Definition cl_env : cenv := mkCE (SpList [XNum (-9)]) PyList
  (fun l => match l with [] => Ok [] | [_] => Err ValueError | _ => Ok [3; 7; 50] end)
  (fun _ _ st => Ok (0, repeat true (length st))).
Definition cl_d : cdata := mkCD [kr 1 10 1; kr 2 0 2; kr 5 7 1; kr 8 4 1; kr (-9) 3 1;
                                {| k_x := XNaN; k_y := Some (-100); k_w := 1 |}] false.
Definition cl_d2 : cdata := mkCD [kr 1 20 1; kr 4 9 1; kr 9 30 2] false.
Definition cl_fs : cfsys := fun _ => None.

(** The solver of the example answers with one entry per prebin, the last one set. *)
Definition cl_env' : cenv := mkCE (ce_special cl_env) PyList (ce_prebin cl_env)
  (fun _ _ st => match st with [] => Err ValueError | _ => Ok (0, repeat true (length st)) end).
Lemma cl_answers : c_answers_fit cl_env'.
Proof.
  intros f n st status sol H. cbn in H. destruct st as [|c st]; [discriminate|]. injection H as <- <-.
  cbn [length repeat]. rewrite repeat_length. split; [reflexivity|]. generalize (length st). intros m.
  induction m as [|m IH]; [reflexivity|]. cbn [repeat last] in *. exact IH.
Qed.
Lemma cl_sorted : c_prebin_sorted cl_env'.
Proof.
  intros l s H. cbn in H. destruct l as [|a [|b l]]; try discriminate; injection H as <-; repeat constructor; lia.
Qed.

Example C82_hyps_met : exists w outs o1 o2,
  c_answers_fit cl_env' /\ c_prebin_sorted cl_env' /\ c_has_clean cl_env' (mkCD [kr 1 5 1] false) /\
  cexec cl_env' (cnew None None, cl_fs) [CSplits; CFit cl_d; CBuild true true; CToJson 1; CReadJson 1; CSplits] = (w, outs) /\
  nth_error outs 0 = Some (Err NotFitted) /\ nth_error outs 5 = Some (Ok (CVSplits (Some [3; 7]))) /\ all_fits_ok
    [CSplits; CFit cl_d; CBuild true true; CToJson 1; CReadJson 1; CSplits] outs /\
  co_fixed (fst w) = None /\ cfit cl_env' cl_d (fst w) = (o1, Ok tt) /\ missing_records cl_d <> [] /\
  cfit cl_env' (mkCD [kr 1 5 1] false) (fst w) = (o2, Err ValueError) /\
  ctransform cl_env' o1 (CMean Empirical Empirical) [XNum 2; XNaN] = Ok (CAMean [Some (10 / 3)%Q; Some (-100 / 1)%Q]).
Proof.
  eexists _, _, _, _. split; [exact cl_answers|]. split; [exact cl_sorted|].
  split. { exists (kr 1 5 1). split; [left; reflexivity|]. exists 1, 5. repeat split. cbn. intros [K|[]]; discriminate K. }
  split; [vm_compute; reflexivity|]. split; [reflexivity|]. split; [reflexivity|].
  split. { intros [|[|[|[|[|[|i]]]]]] d K; try discriminate K; [eexists; reflexivity|destruct i; discriminate K]. }
  split; [reflexivity|]. split; [vm_compute; reflexivity|]. split; [discriminate|].
  split; [vm_compute; reflexivity|]. vm_compute. reflexivity.
Qed.

(** The claim that a refit equals the fit of a new object is false: the second data set has no missing record and no target below 9,
    but Std, Min and Max of its Missing row, and the Min of the Totals row, are those of the first data set. *)
Theorem C82_stale_totals_refuted : exists e d d2 o1 o2 o3 rows rows',
  cfit e d (cnew None None) = (o1, Ok tt) /\ cfit e d2 o1 = (o2, Ok tt) /\ cfit e d2 (cnew None None) = (o3, Ok tt) /\
  missing_records d2 = [] /\ (forall r, In r (cd_recs d2) -> 9 <= k_target r) /\
  snd (cstep e (o2, cl_fs) (CBuild true true)) = Ok (CVBuild [3; 7] rows (Some (Fin (-100), Fin 60))) /\
  snd (cstep e (o3, cl_fs) (CBuild true true)) = Ok (CVBuild [3; 7] rows' (Some (Fin 9, Fin 60))) /\
  option_map r_min (nth_error rows 4) = Some (Fin (-100)) /\ option_map r_min (nth_error rows' 4) = Some ENaN /\
  option_map r_n (nth_error rows 4) = Some 0.
Proof.
  exists cl_env', cl_d, cl_d2. eexists _, _, _, _, _.
  split; [vm_compute; reflexivity|]. split; [vm_compute; reflexivity|]. split; [vm_compute; reflexivity|].
  split; [reflexivity|]. split. { intros r [<-|[<-|[<-|[]]]]; cbn; lia. }
  split; [vm_compute; reflexivity|]. split; [vm_compute; reflexivity|]. repeat split.
Qed.
Print Assumptions C82_stale_totals_refuted.

(** A failed fit on data without a clean record replaces the split points but not the table: transform then maps every value to
    the mean of the first old bin. *)
Theorem C82_failed_refit_mixes_results_refuted : exists e d d2 o1 o2,
  cfit e d (cnew None None) = (o1, Ok tt) /\ cfit e d2 o1 = (o2, Err ValueError) /\
  snd (cstep e (o1, cl_fs) CSplits) = Ok (CVSplits (Some [3; 7])) /\ snd (cstep e (o2, cl_fs) CSplits) = Ok (CVSplits (Some [])) /\
  ctransform e o1 (CMean (Const true (Some 0%Q)) (Const true (Some 0%Q))) [XNum 5] = Ok (CAMean [Some (7 / 1)%Q]) /\
  ctransform e o2 (CMean (Const true (Some 0%Q)) (Const true (Some 0%Q))) [XNum 5] = Ok (CAMean [Some (10 / 3)%Q]).
Proof.
  exists cl_env', cl_d, (mkCD [{| k_x := XNaN; k_y := Some 1; k_w := 1 |}] false). eexists _, _.
  split; [vm_compute; reflexivity|]. split; [vm_compute; reflexivity|]. split; [vm_compute; reflexivity|].
  split; [vm_compute; reflexivity|]. split; vm_compute; reflexivity.
Qed.
Print Assumptions C82_failed_refit_mixes_results_refuted.

(** With fixed user splits a second fit on the same data raises. *)
Theorem C82_fixed_splits_refuted : exists e user fixed d o1,
  cfit e d (cnew user fixed) = (o1, Ok tt) /\ snd (cfit e d o1) = Err ValueError.
Proof.
  exists cl_env', (Some (PyList, [7; 3])), (Some (false, [true; false])), cl_d. eexists.
  split; vm_compute; reflexivity.
Qed.
Print Assumptions C82_fixed_splits_refuted.

(** The refinement count of information() adds up. *)
Theorem C82_refinement_count_refuted : exists e d o1 o2,
  cfit e d (cnew None None) = (o1, Ok tt) /\ cfit e d o1 = (o2, Ok tt) /\
  snd (cstep e (o1, cl_fs) CInformation) = Ok (CVInfo 1) /\ snd (cstep e (o2, cl_fs) CInformation) = Ok (CVInfo 2).
Proof.
  exists cl_env', cl_d. eexists _, _. split; [vm_compute; reflexivity|]. split; [vm_compute; reflexivity|].
  split; vm_compute; reflexivity.
Qed.
Print Assumptions C82_refinement_count_refuted.
