(** C84: a MulticlassOptimalBinning object over any history of calls. *)
From Coq Require Import List ZArith Reals Bool Arith Lia.
From Verif Require Import Model.Arr Model.Core Model.Multi Model.Metrics Model.MultiT Model.Lifecycle Model.MultiLife
  Spec.CoreSpec Spec.MultiSpec Spec.MultiWSpec Spec.MultiLifeSpec
  Proofs.ArrP Proofs.CoreP Proofs.LifeR Proofs.MultiP Proofs.MultiFinal Proofs.MultiW Proofs.MultiLifeP.
Import ListNotations.
Open Scope Z_scope.

(** Every call that needs a fitted object raises NotFittedError exactly until a fit returned normally or read_json was called. *)
Theorem C84_not_fitted_iff : forall e user fixed fs h w outs c,
  mexec e (mnew user fixed, fs) h = (w, outs) -> mc_needs_fit c ->
  (snd (mstep e w c) = Err NotFitted <-> ~ mc_succeeded mc_is_fit h outs /\ ~ mc_called mc_is_read h).
Proof. exact mc_not_fitted_iff. Qed.
Print Assumptions C84_not_fitted_iff.

(** fit on an object with any history raises what it raises on a new object with the same parameters, and when it returns, every
    further history of calls (information() aside) answers as on the new object. *)
Theorem C84_fit_forgets_history : forall e user0 fixed0 fs0 h0 w outs rs o1 r1 o2 r2,
  mexec e (mnew user0 fixed0, fs0) h0 = (w, outs) -> mo_fixed (fst w) = None ->
  mfit e rs (fst w) = (o1, r1) -> mfit e rs (mnew (mo_user (fst w)) None) = (o2, r2) ->
  r1 = r2 /\
  (r1 = Ok tt -> forall fs h, ~ In MInformation h -> snd (mexec e (o1, fs) h) = snd (mexec e (o2, fs) h)).
Proof.
  intros e user0 fixed0 fs0 h0 w outs rs o1 r1 o2 r2 _ FX F1 F2. destruct (m_refit e (fst w) rs o1 r1 o2 r2 FX F1 F2) as (A & B & _).
  split; [exact A|]. intros K fs h N. apply mexec_sim; [exact (B K)|exact N].
Qed.
Print Assumptions C84_fit_forgets_history.

(** information(): the number of refinements is that of a fit of a new object plus what the object had counted before. *)
Theorem C84_refinement_count : forall e o rs o1 r1 o2 r2, mo_fixed o = None ->
  mfit e rs o = (o1, r1) -> mfit e rs (mnew (mo_user o) None) = (o2, r2) -> mo_nref o1 = (mo_nref o + mo_nref o2)%nat.
Proof. intros e o rs o1 r1 o2 r2 FX F1 F2. apply (m_refit e o rs o1 r1 o2 r2 FX F1 F2). Qed.
Print Assumptions C84_refinement_count.

(** After a successful fit, whatever happened before: the classes are the labels of the clean records, the table, the splits and
    the classes agree, and every cell of the table counts the records of its class that belong to its row. *)
Theorem C84_table_after_any_history : forall e o rs o1, mc_answers_fit e -> mc_prebin_sorted e ->
  ~ In XNaN (flat_codes (me_special e)) -> mfit e rs o = (o1, Ok tt) ->
  exists t, mo_table o1 = Some t /\ mo_splits o1 = Some (mt_splits t) /\ mo_classes o1 = Some (mt_classes t) /\
    mc_labels e rs (mt_classes t) /\ length (mt_cols t) = length (mt_classes t) /\
    forall c cl, nth_error (mt_classes t) c = Some cl ->
      nondecreasing (mt_splits t) /\
      exists col, nth_error (mt_cols t) c = Some col /\ length col = (S (length (mt_splits t)) + n_special (me_special e) + 1)%nat /\
      forall k p, (k < S (length (mt_splits t)) + n_special (me_special e) + 1)%nat ->
        (forall r, p r = true <-> m_y r = Some cl /\ row_of (mt_splits t) (me_special e) (m_x r) k) ->
        nth_error col k = Some (Z.of_nat (length (filter p rs))).
Proof.
  intros e o rs o1 AF PS NN F. destruct (mfit_ok _ _ _ _ F) as (fx & m & f' & u' & s0 & f & FM & ND & T & SP & _ & CL & _).
  eexists. split; [exact T|]. cbn [mt_splits mt_cols mt_classes]. split; [exact SP|]. split; [exact CL|].
  destruct (multi_table _ _ _ _ _ _ _ (ND PS) (msolver_ok e fx m AF) NN FM) as (A & B & C & D).
  split; [|split; [exact C|exact D]]. split; [exact A|]. intros cl. rewrite B. split.
  - intros (r & I & Y & X & NI). exists r. split; [exact I|]. split; [|exact Y]. destruct (m_x r) as [|z] eqn:E; [contradiction X; reflexivity|].
    exists z, cl. rewrite E. repeat split; assumption.
  - intros (r & I & (z & y & X & Y & NI) & Y'). exists r. rewrite X. repeat split; try assumption. discriminate.
Qed.
Print Assumptions C84_table_after_any_history.

(** After a successful fit, transform maps a value to the (weighted) mean over the classes of the one-vs-rest WoE of its table row. *)
Theorem C84_transform_after_any_history : forall e o rs o1 m ms mm x k, mc_answers_fit e -> mc_prebin_sorted e ->
  ~ In XNaN (flat_codes (me_special e)) -> sp_disjoint (me_special e) -> mc_has_clean e rs -> mfit e rs o = (o1, Ok tt) ->
  exists t, mo_table o1 = Some t /\
    (row_of (mt_splits t) (me_special e) x k -> ((k <= length (mt_splits t))%nat \/ (ms = Empirical /\ mm = Empirical)) ->
     mtransform e o1 m ms mm [x] =
     let cs := seq 0 (length (mt_classes t)) in
     Ok [match m with
         | MeanWoe => rsum (map (ovr_woe (mt_cols t) k) cs) / INR (length (mt_classes t))
         | WeightedMeanWoe => rsum (map (fun c => IZR (zsum (nth c (mt_cols t) [])) * ovr_woe (mt_cols t) k c) cs)
                              / rsum (map (fun c => IZR (zsum (nth c (mt_cols t) []))) cs)
         end]%R).
Proof.
  intros e o rs o1 m ms mm x k AF PS NN SD (r0 & I0 & z0 & y0 & X0 & Y0 & N0) F.
  destruct (mfit_ok _ _ _ _ F) as (fx & mm' & f' & u' & s0 & f & FM & ND & T & SP & CO & CL & FT).
  eexists. split; [exact T|]. cbn [mt_splits mt_cols mt_classes]. intros R K.
  destruct (multi_table _ _ _ _ _ _ _ (ND PS) (msolver_ok e fx mm' AF) NN FM) as (_ & B & _).
  assert (NE : mf_classes f <> []).
  { intros Q. assert (J : In y0 (mf_classes f)); [|rewrite Q in J; exact J]. apply B. exists r0. rewrite X0.
    repeat split; try assumption. discriminate. }
  pose proof (multi_woe _ _ _ _ _ _ f m ms mm x k (ND PS) (msolver_ok e fx mm' AF) NN SD FM NE R K) as W.
  unfold mtransform. rewrite FT, SP, CO. cbn [negb map all_res]. unfold transform_multi in W. rewrite W. destruct m; reflexivity.
Qed.
Print Assumptions C84_transform_after_any_history.

(** A fit that raises on data with a clean record leaves transform, splits, status and binning_table as they were. *)
Theorem C84_failed_refit_keeps_results_partial : forall e rs o o' k, mc_answers_fit e -> mc_has_clean e rs ->
  me_special e <> SpDict [] -> mfit e rs o = (o', Err k) ->
  forall fs c, mc_query c -> snd (mstep e (o', fs) c) = snd (mstep e (o, fs) c).
Proof.
  intros e rs o o' k AF HC ND F fs c Q. destruct (m_failed _ _ _ _ _ AF HC ND F) as (A & B & C & D & E).
  destruct c; try contradiction Q; cbn [mstep snd]; unfold mtransform, guarded; rewrite ?A, ?B, ?C, ?D, ?E; reflexivity.
Qed.
Print Assumptions C84_failed_refit_keeps_results_partial.

(** but unless the fit failed before looking at the data, [classes] then reports the labels of the failed data. *)
Theorem C84_failed_refit_classes : forall e rs o o' k, mfit e rs o = (o', Err k) ->
  o' = o \/ (exists l, mo_classes o' = Some l /\ mc_labels e rs l).
Proof. exact m_failed_classes. Qed.
Print Assumptions C84_failed_refit_classes.

(** to_json then read_json restores the table, but transform, splits and classes do not use it. *)
Theorem C84_json_round_trip : forall o fs p fs1 o2, mto_json o fs p = (fs1, Ok tt) ->
  exists t o3 t', mo_table o = Some t /\ mread_json o2 fs1 p = (o3, Ok tt) /\ mo_table o3 = Some t' /\ mc_same_contents t t'.
Proof. exact m_round_trip. Qed.
Print Assumptions C84_json_round_trip.
Theorem C84_transform_ignores_file : forall e user fixed fs0 h o fs outs p o1 r m ms mm xs,
  mexec e (mnew user fixed, fs0) h = ((o, fs), outs) -> mread_json o fs p = (o1, r) ->
  (~ mc_called mc_is_fit h -> mtransform e o1 m ms mm xs = Err TypeError /\
     forall fs', snd (mstep e (o1, fs') MSplits) = Ok (MVSplits None) /\ snd (mstep e (o1, fs') MClasses) = Ok (MVClasses None)) /\
  (mo_fitted o = true -> mtransform e o1 m ms mm xs = mtransform e o m ms mm xs /\
     forall fs', snd (mstep e (o1, fs') MSplits) = snd (mstep e (o, fs') MSplits) /\
                 snd (mstep e (o1, fs') MClasses) = snd (mstep e (o, fs') MClasses)).
Proof.
  intros e user fixed fs0 h o fs outs p o1 r m ms mm xs H R. pose proof (mread_fitted _ _ _ _ _ R) as FT.
  assert (E : mo_splits o1 = mo_splits o /\ mo_cols o1 = mo_cols o /\ mo_classes o1 = mo_classes o).
  { unfold mread_json in R. destruct (fs p) as [[j|]|]; injection R as <- <-; repeat split. }
  destruct E as (E1 & E2 & E3). split.
  - intros N. destruct (m_never_fit _ _ _ _ _ H N) as [S C]. cbn [fst mnew mo_splits mo_classes] in S, C.
    unfold mtransform. cbn [mstep snd]. unfold guarded. rewrite FT, E1, E3, S, C. repeat split.
  - intros F. unfold mtransform. cbn [mstep snd]. unfold guarded. rewrite FT, F, E1, E2, E3. repeat split.
Qed.
Print Assumptions C84_transform_ignores_file.

(** ** Concrete histories *)
Definition ml_r (x y : Z) : mrec := {| m_x := XNum x; m_y := Some y |}.
Definition ml_env (sp : special) : menv := mkME sp PyList
  (fun l => match l with [] => Ok [] | _ => Ok [3; 7; 50] end)
  (fun _ m cols => if (m =? 2)%nat then Err ValueError else
     Ok (0, repeat true (match cols with [] => 1 | c :: _ => length (fst c) end))).
Definition ml_d : list mrec := [ml_r 1 0; ml_r 2 1; ml_r 2 2; ml_r 4 0; ml_r 5 0; ml_r 5 1; ml_r 5 2; ml_r 8 2; ml_r 9 2; ml_r 8 0; ml_r 8 1;
                                ml_r (-9) 1; {| m_x := XNaN; m_y := Some 0 |}].
Definition ml_fs : mfsys := fun _ => None.
Lemma ml_answers sp : mc_answers_fit (ml_env sp).
Proof.
  intros f m cols status sol n H N NE L. cbn in H. destruct (m =? 2)%nat; [discriminate|]. injection H as <- <-.
  destruct cols as [|c cols]; [contradiction NE; reflexivity|]. destruct (L c (or_introl eq_refl)) as [Lc _].
  rewrite repeat_length, Lc. split; [reflexivity|]. destruct n as [|n]; [lia|]. clear. induction n as [|n IH]; [reflexivity|].
  cbn [repeat last] in *. exact IH.
Qed.
Lemma ml_sorted sp : mc_prebin_sorted (ml_env sp).
Proof. intros l s H. cbn in H. destruct l; injection H as <-; repeat constructor; lia. Qed.

Example C84_hyps_met : exists w outs o1,
  mc_answers_fit (ml_env (SpList [XNum (-9)])) /\ mc_prebin_sorted (ml_env (SpList [XNum (-9)])) /\
  mexec (ml_env (SpList [XNum (-9)])) (mnew None None, ml_fs) [MSplits; MFit ml_d; MSplits; MClasses; MToJson 1; MReadJson 1; MToJson 1; MTable] = (w, outs) /\
  outs = [Err NotFitted; Ok MVNone; Ok (MVSplits (Some [3; 7])); Ok (MVClasses (Some [0; 1; 2])); Ok MVNone; Ok MVNone; Err TypeError;
          Ok (MVTable (Some (mkMT (SpList [XNum (-9)]) NdArray [3; 7]
             [[1; 2; 1; 0; 1]; [1; 1; 1; 1; 0]; [1; 1; 2; 0; 0]] [0; 1; 2])))] /\
  mo_fixed (fst w) = None /\ mfit (ml_env (SpList [XNum (-9)])) ml_d (fst w) = (o1, Ok tt) /\
  mc_has_clean (ml_env (SpList [XNum (-9)])) ml_d /\ row_of [3; 7] (SpList [XNum (-9)]) (XNum 8) 2.
Proof.
  eexists _, _, _. split; [apply ml_answers|]. split; [apply ml_sorted|]. split; [vm_compute; reflexivity|].
  split; [reflexivity|]. split; [reflexivity|]. split; [vm_compute; reflexivity|].
  split. { exists (ml_r 1 0). split; [left; reflexivity|]. exists 1, 0. repeat split. cbn. intros [K|[]]; discriminate K. }
  right. split; [cbn; intros [K|[]]; discriminate K|]. vm_compute. repeat split; intros; try discriminate; lia.
Qed.

(** A refit that raises in the optimiser: transform, splits, status and table stay, but classes reports the failed data's labels,
    which the table does not have. *)
Theorem C84_failed_refit_classes_refuted : exists e d d2 o1 o2,
  mfit e d (mnew None None) = (o1, Ok tt) /\ mfit e d2 o1 = (o2, Err ValueError) /\ mc_has_clean e d2 /\
  snd (mstep e (o1, ml_fs) MClasses) = Ok (MVClasses (Some [0; 1; 2])) /\
  snd (mstep e (o2, ml_fs) MClasses) = Ok (MVClasses (Some [5; 6])) /\
  mo_table o2 = mo_table o1 /\ option_map mt_classes (mo_table o2) = Some [0; 1; 2].
Proof.
  exists (mkME SpNone PyList (fun _ => Ok [3]) (fun _ n cols => if (n =? 4)%nat then Err ValueError else Ok (0, [true; true]))), ml_d,
    [ml_r 1 5; ml_r 8 5; ml_r 1 6; ml_r 8 6]. eexists _, _.
  split; [vm_compute; reflexivity|]. split; [vm_compute; reflexivity|].
  split. { exists (ml_r 1 5). split; [left; reflexivity|]. exists 1, 5. repeat split. intros []. }
  repeat split; vm_compute; reflexivity.
Qed.
Print Assumptions C84_failed_refit_classes_refuted.

(** A refit on data without a clean record (values all special or missing) raises IndexError and leaves a mixed object: new split
    points (none), no classes, the old table. *)
Theorem C84_failed_refit_mixes_results_refuted : exists e d d2 o1 o2,
  mfit e d (mnew None None) = (o1, Ok tt) /\ mfit e d2 o1 = (o2, Err IndexError) /\
  snd (mstep e (o1, ml_fs) MSplits) = Ok (MVSplits (Some [3; 7])) /\ snd (mstep e (o2, ml_fs) MSplits) = Ok (MVSplits (Some [])) /\
  snd (mstep e (o2, ml_fs) MClasses) = Ok (MVClasses (Some [])) /\ mo_table o2 = mo_table o1 /\
  option_map mt_splits (mo_table o2) = Some [3; 7].
Proof.
  exists (ml_env (SpList [XNum (-9)])), ml_d, [ml_r (-9) 1; {| m_x := XNaN; m_y := Some 0 |}; ml_r (-9) 0]. eexists _, _.
  split; [vm_compute; reflexivity|]. split; [vm_compute; reflexivity|]. repeat split; vm_compute; reflexivity.
Qed.
Print Assumptions C84_failed_refit_mixes_results_refuted.

(** With fixed user splits a second fit on the same data raises. *)
Theorem C84_fixed_splits_refuted : exists e user fixed d o1,
  mfit e d (mnew user fixed) = (o1, Ok tt) /\ snd (mfit e d o1) = Err ValueError.
Proof.
  exists (ml_env SpNone), (Some (PyList, [7; 3])), (Some (false, [true; false])), ml_d. eexists.
  split; vm_compute; reflexivity.
Qed.
Print Assumptions C84_fixed_splits_refuted.

(** The refinement count of information() adds up. *)
Theorem C84_refinement_count_refuted : exists e d o1 o2,
  mfit e d (mnew None None) = (o1, Ok tt) /\ mfit e d o1 = (o2, Ok tt) /\
  snd (mstep e (o1, ml_fs) MInformation) = Ok (MVInfo 1) /\ snd (mstep e (o2, ml_fs) MInformation) = Ok (MVInfo 2).
Proof.
  exists (ml_env (SpList [XNum (-9)])), ml_d. eexists _, _. split; [vm_compute; reflexivity|]. split; [vm_compute; reflexivity|].
  split; vm_compute; reflexivity.
Qed.
Print Assumptions C84_refinement_count_refuted.

(** A table read from a file cannot be saved again when the special codes are a list: to_json raises TypeError and leaves a truncated
    file, so the copy just read is lost. *)
Theorem C84_second_save_refuted : exists e d o1 fs1 o2 fs2,
  mfit e d (mnew None None) = (o1, Ok tt) /\ mto_json o1 ml_fs 1 = (fs1, Ok tt) /\ mread_json (mnew None None) fs1 1 = (o2, Ok tt) /\
  mto_json o2 fs1 1 = (fs2, Err TypeError) /\ snd (mread_json o2 fs2 1) = Err ValueError.
Proof.
  exists (ml_env (SpList [XNum (-9)])), ml_d. eexists _, _, _, _. split; [vm_compute; reflexivity|].
  split; [reflexivity|]. split; [reflexivity|]. split; [reflexivity|]. reflexivity.
Qed.
Print Assumptions C84_second_save_refuted.
