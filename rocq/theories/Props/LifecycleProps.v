(** C26 (refitting), C49 (call histories), C50 (json), C59 (failed refits), and C03 for refitted objects. *)
From Coq Require Import List ZArith QArith Bool Arith Lia Sorting.
From Verif Require Import Model.Arr Model.Core Model.CP Model.Lifecycle Spec.CoreSpec Spec.LifecycleSpec
  Proofs.ArrP Proofs.CoreP Proofs.LifeP Proofs.LifeQ Proofs.LifeR.
Import ListNotations.
Open Scope Z_scope.

Ltac ev := repeat match goal with |- _ /\ _ => split end; (vm_compute; reflexivity).

(** A concrete setting: special code -9, prebinning proposes [4; 6; 8], every prebin is kept. *)
Definition ex_env' (dv : divergence) : env :=
  mkE 1 dv (SpList [XNum (-9)]) PyList (fun _ => Ok [4; 6; 8])
      (fun _ _ _ nev _ => match nev with [] => Err ValueError | _ => Ok (0, repeat true (length nev)) end).
Definition ex_d (i : bool) : data :=
  mkD [XNum 1; XNum 2; XNum 5; XNum 5; XNum 7; XNum 9; XNum 10; XNaN; XNum (-9)]
      [Y0; Y1; Y1; Y0; Y1; Y0; Y1; Y1; Y0] [1;1;1;1;1;1;1;1;1] i.
Definition ex_d2 : data := mkD [XNum 1; XNum 2; XNum 7; XNum 7; XNaN; XNaN] [Y0; Y1; Y1; Y0; Y0; Y1] [1;1;1;1;1;1] false.
Definition ex_fs : fsys := fun _ => None.
Lemma ex_answers dv : answers_fit (ex_env' dv).
Proof.
  intros f b n nev ev st sol H. cbn in H. destruct nev as [|a r]; [discriminate|]. injection H as <- <-.
  cbn [length repeat]. rewrite repeat_length. split; [reflexivity|]. clear. cbn [last].
  induction r as [|x r IH]; [reflexivity|]. cbn [length repeat]. cbn [length repeat] in IH. destruct (repeat true (length r)) eqn:E.
  - reflexivity.
  - exact IH.
Qed.
Lemma ex_neutral dv : min_one_neutral (ex_env' dv).
Proof. right. intros. reflexivity. Qed.

(** ** C26 *)

(** Whatever calls were made before, fit(d) raises the same exception as on a new object with the same parameters, or
    succeeds on both; after a success every further call (information() aside) gives the same answer on both. *)
Theorem C26_fit_forgets_history : forall e user0 fixed0 fs0 h0 w outs d o1 r1 o2 r2,
  min_one_neutral e ->
  exec e (new user0 fixed0, fs0) h0 = (w, outs) ->
  o_fixed (fst w) = None -> (forall c, o_user (fst w) <> Some (c, [])) ->
  fit e d (fst w) = (o1, r1) -> fit e d (new (o_user (fst w)) None) = (o2, r2) ->
  r1 = r2 /\
  (r1 = Ok tt -> forall fs h, ~ In Information h -> snd (exec e (o1, fs) h) = snd (exec e (o2, fs) h)).
Proof. intros. eapply C26_refit; eassumption. Qed.
Print Assumptions C26_fit_forgets_history.

(** fit twice = fit once. *)
Theorem C26_refit_idempotent_partial : forall e user d o1 o2 r,
  min_one_neutral e -> (forall c, user <> Some (c, [])) ->
  fit e d (new user None) = (o1, Ok tt) -> fit e d o1 = (o2, r) ->
  r = Ok tt /\ o_user o1 = user /\ o_fixed o1 = None /\
  forall fs h, ~ In Information h -> snd (exec e (o2, fs) h) = snd (exec e (o1, fs) h).
Proof.
  intros e user d o1 o2 r MN NU F1 F2.
  destruct (params_kept e d (new user None) eq_refl) as [K1 K2]. rewrite F1 in K1, K2. cbn [fst new o_user] in K1, K2.
  destruct (C26_refit e o1 d o2 r o1 (Ok tt) MN K1) as [A B].
  - rewrite K2. exact NU.
  - exact F2.
  - rewrite K2. exact F1.
  - subst r. split; [reflexivity|]. split; [exact K2|]. split; [exact K1|]. intros fs h NI. apply B; [reflexivity|exact NI].
Qed.
Print Assumptions C26_refit_idempotent_partial.

Example C26_hyps_met : min_one_neutral (ex_env' IV) /\
  exists o1 o2, fit (ex_env' IV) (ex_d false) (new (Some (PyList, [8; 4; 6])) None) = (o1, Ok tt) /\
    fit (ex_env' IV) ex_d2 o1 = (o2, Ok tt) /\
    option_map snd (o_splits o1) = Some [4; 6] /\ o_counts o1 = Some ([1; 1; 1; 1; 0], [1; 1; 2; 0; 1]) /\
    option_map snd (o_splits o2) = Some [4] /\ o_counts o2 = Some ([1; 1; 0; 1], [1; 1; 0; 1]).
Proof. split; [apply ex_neutral|]. eexists _, _. ev. Qed.

(** Why [min_one_neutral] is the right reading of the optimiser: when every prebin has events and non-events, raising the
    minimum counts per bin to one (binning.py:929-939) does not change the feasible set of the constraint model of cp.py.
    (Ties between equally good solutions remain up to the solver.) *)
Definition at_least_one (m : option Z) : option Z := Some (match m with None => 1 | Some a => Z.max a 1 end).
Definition with_min_one (g : cp_cfg) : cp_cfg :=
  {| g_trend := g_trend g; g_min_bins := g_min_bins g; g_max_bins := g_max_bins g; g_min_size := g_min_size g;
     g_max_size := g_max_size g; g_min_ne := at_least_one (g_min_ne g); g_max_ne := g_max_ne g;
     g_min_e := at_least_one (g_min_e g); g_max_e := g_max_e g; g_md0 := g_md0 g; g_fixed := g_fixed g;
     g_pviol := g_pviol g; g_dviol := g_dviol g |}.
Theorem C26_min_one_redundant : forall n D M ne ev g X,
  (forall j, (j < n)%nat -> 1 <= ne j /\ 1 <= ev j) ->
  (feasible n D M ne ev (with_min_one g) X <-> feasible n D M ne ev g X).
Proof.
  intros n D M ne ev g X P.
  assert (R : forall cnt i, bool_vars n X -> (forall j, (j < n)%nat -> 1 <= cnt j) -> (i < n)%nat -> row_size cnt X i >= X i i).
  { intros cnt i B C Hi. unfold row_size, sum_range. rewrite Nat.sub_0_r, seq_S, map_app, zsum_app. cbn [map zsum plus].
    assert (0 <= zsum (map (fun j => cnt j * X i j) (seq 0 i))).
    { assert (G : forall j, In j (seq 0 i) -> 0 <= cnt j * X i j).
      { intros j Hj. apply in_seq in Hj. specialize (C j ltac:(lia)). destruct (B i j Hi ltac:(lia)) as [->| ->]; lia. }
      induction (seq 0 i) as [|a l IH]; [cbn; lia|]. cbn [map zsum]. specialize (IH (fun j K => G j (or_intror K))).
      specialize (G a (or_introl eq_refl)). lia. }
    specialize (C i Hi). destruct (B i i Hi ltac:(lia)) as [->| ->]; lia. }
  assert (K : forall mn mx cnt, bool_vars n X -> (forall j, (j < n)%nat -> 1 <= cnt j) ->
            (min_max_count n (at_least_one mn) mx cnt X <-> min_max_count n mn mx cnt X)).
  { intros mn mx cnt B C. unfold min_max_count. split; intros H i Hi; destruct (H i Hi) as [H1 H2]; (split; [|exact H2]).
    - intros a ->. specialize (H1 _ eq_refl). destruct (B i i Hi ltac:(lia)) as [Z|Z]; rewrite Z in *; lia.
    - intros a E. unfold at_least_one in E. injection E as <-. specialize (R cnt i B C Hi).
      destruct mn as [m|]; [|lia]. specialize (H1 m eq_refl).
      destruct (B i i Hi ltac:(lia)) as [Z|Z]; rewrite Z in *; lia. }
  unfold feasible. cbn [with_min_one g_trend g_min_bins g_max_bins g_min_size g_max_size g_min_ne g_max_ne g_min_e g_max_e g_md0
    g_fixed g_pviol g_dviol].
  change (trend_constr n D M (with_min_one g) X) with (trend_constr n D M g X).
  split; intros (B & H); pose proof (K (g_min_ne g) (g_max_ne g) ne B (fun j Hj => proj1 (P j Hj))) as K1;
    pose proof (K (g_min_e g) (g_max_e g) ev B (fun j Hj => proj2 (P j Hj))) as K2; tauto.
Qed.
Print Assumptions C26_min_one_redundant.

(** With user_splits_fixed, a second fit raises ValueError whatever the data, unless no user split is left: the first
    fit replaced the parameter by an array of numpy booleans, which the parameter check rejects. *)
Theorem C26_fixed_refit_raises : forall e o d o1 r f c u,
  o_fixed o = Some (false, f) -> o_user o = Some (c, u) -> length u = length f -> distinct u = true ->
  fit e d o = (o1, r) -> (forall c', o_user o1 <> Some (c', [])) ->
  forall d', snd (fit e d' o1) = Err ValueError.
Proof. exact C26_fixed. Qed.
Print Assumptions C26_fixed_refit_raises.

Theorem C26_fixed_splits_refuted : exists e user fixed d o1,
  fit e d (new user fixed) = (o1, Ok tt) /\ snd (fit e d o1) = Err ValueError.
Proof.
  exists (ex_env' IV), (Some (PyList, [4; 8])), (Some (false, [true; false])), (ex_d false).
  eexists. ev.
Qed.
Print Assumptions C26_fixed_splits_refuted.

(** The number of refinements printed by information() adds up over the fits. *)
Theorem C26_refinement_count_refuted : exists e user d o1 o2, min_one_neutral e /\
  fit e d (new user None) = (o1, Ok tt) /\ fit e d o1 = (o2, Ok tt) /\
  snd (step e (o1, ex_fs) Information) = Ok (VInfo 1) /\ snd (step e (o2, ex_fs) Information) = Ok (VInfo 2).
Proof.
  exists (ex_env' IV), None, (ex_d false). eexists _, _. split; [apply ex_neutral|]. ev.
Qed.
Print Assumptions C26_refinement_count_refuted.

(** With user_splits=[] (set after a first fit) the special and missing rows are those of the previous data: the second
    table reports a special and a missing record although the second data set has neither. *)
Theorem C26_empty_user_splits_refuted : exists e d d2 w outs t,
  exec e (new None None, ex_fs) [Fit d; SetParams (Some (PyList, [])) None; Fit d2] = (w, outs) /\
  outs = [Ok VNone; Ok VNone; Ok VNone] /\ d_x d2 = [XNum 1; XNum 2] /\ o_table (fst w) = Some t /\
  t_nev t = [1; 1; 0] /\ t_ev t = [1; 0; 1] /\
  snd (fit e d2 (new (Some (PyList, [])) None)) = Err TypeError.
Proof.
  exists (ex_env' IV), (ex_d false), (mkD [XNum 1; XNum 2] [Y0; Y1] [1; 1] false).
  eexists _, _, _. ev.
Qed.
Print Assumptions C26_empty_user_splits_refuted.

(** ** C03 for an object in any state (fitted before or not). *)
Theorem C03_after_any_history : forall e x o o1, e_wu e = 1 -> answers_fit e -> prebin_sorted e ->
  (forall c, o_user o <> Some (c, [])) ->
  length (d_x x) = length (d_y x) -> length (d_x x) = length (d_w x) ->
  ~ In YNaN (d_y x) -> ~ In XNaN (flat_codes (e_special e)) -> sp_disjoint (e_special e) ->
  fit e x o = (o1, Ok tt) ->
  exists t, o_table o1 = Some t /\ o_splits o1 = Some (t_splits_c t, t_splits t) /\ o_counts o1 = Some (t_nev t, t_ev t) /\
  let n_rows := (S (length (t_splits t)) + n_special (e_special e) + 1)%nat in
  let weight_to := fun nonevent k => weight_of (fun r => Bool.eqb (y_is0 (row_y r)) nonevent &&
       match transform e o1 (Indices Empirical Empirical) [row_x r] with
       | Ok (AIndex [z]) => Z.eqb z (Z.of_nat k) | _ => false end) (rows (d_x x) (d_y x) (d_w x)) in
  length (t_nev t) = n_rows /\ length (t_ev t) = n_rows /\
  forall k, (k < n_rows)%nat ->
    nth_error (t_nev t) k = Some (weight_to true k) /\ nth_error (t_ev t) k = Some (weight_to false k).
Proof. exact C03_any. Qed.
Print Assumptions C03_after_any_history.

Example C03_history_hyps_met : answers_fit (ex_env' IV) /\ prebin_sorted (ex_env' IV) /\
  ~ In XNaN (flat_codes (e_special (ex_env' IV))) /\ sp_disjoint (e_special (ex_env' IV)) /\
  exists o1, fit (ex_env' IV) (ex_d false) (new None None) = (o1, Ok tt) /\
    o_counts o1 = Some ([1; 1; 1; 1; 0], [1; 1; 2; 0; 1]).
Proof.
  split; [apply ex_answers|]. split; [|split; [|split; [exact I|eexists; ev]]].
  - intros cs s H. cbn in H. injection H as <-. repeat constructor; lia.
  - intros [K|[]]. discriminate K.
Qed.

(** ** C49 *)

(** transform, splits, status, binning_table, information, to_json and build raise NotFittedError exactly when no fit has
    returned normally and read_json was never called. *)
Theorem C49_not_fitted_iff : forall e user fixed fs h w outs c,
  exec e (new user fixed, fs) h = (w, outs) -> needs_fit c ->
  (snd (step e w c) = Err NotFitted <-> ~ succeeded is_fit h outs /\ ~ called is_read h).
Proof. exact C49_not_fitted. Qed.
Print Assumptions C49_not_fitted_iff.

(** Between a successful fit and the next one, plot, analysis and the statistics raise NotFittedError exactly until
    build() returned normally, quality_score exactly until analysis() did, and the table contents do not change. *)
Theorem C49_table_flags : forall e w0 d w1 v h w outs,
  step e w0 (Fit d) = (w1, Ok v) -> exec e w1 h = (w, outs) -> ~ called is_read h -> ~ succeeded is_fit h outs ->
  (forall c, needs_build c -> (snd (step e w c) = Err NotFitted <-> ~ succeeded is_build h outs)) /\
  (forall c, needs_analysis c -> (snd (step e w c) = Err NotFitted <-> ~ succeeded is_analysis h outs)) /\
  exists t t', snd (step e w1 Table) = Ok (VTable (Some t)) /\ snd (step e w Table) = Ok (VTable (Some t')) /\
    same_contents t t'.
Proof.
  intros e w0 d w1 v h w outs F H NR NF. destruct w0 as [o0 fs0]. cbn [step] in F.
  destruct (fit e d o0) as [o1 q] eqn:FE. injection F as <- Q. destruct q as [[]|k]; [|discriminate].
  destruct (fit_table e d o0 o1 FE) as (t & a & b & s & c' & T & B & An & _ & _ & _ & _ & _ & _ & _ & _ & _ & _ & OF & _).
  destruct (exec_table e h _ _ _ t H OF T NR NF) as (t' & T' & B' & A' & C').
  assert (OF' : o_fitted (fst w) = true). { apply (exec_fitted _ _ _ _ _ H). left. exact OF. }
  rewrite B in B'. rewrite An in A'. destruct w as [o fs]. unfold tb in T'. cbn [fst] in *.
  assert (BB : t_built t' = false <-> ~ succeeded is_build h outs).
  { destruct (t_built t'); split; try discriminate.
    - intros K. exfalso. apply K. destruct (proj1 B' eq_refl) as [Z|Z]; [discriminate|exact Z].
    - intros _ K. discriminate (proj2 B' (or_intror K)).
    - reflexivity. }
  assert (AA : t_analyzed t' = false <-> ~ succeeded is_analysis h outs).
  { destruct (t_analyzed t'); split; try discriminate.
    - intros K. exfalso. apply K. destruct (proj1 A' eq_refl) as [Z|Z]; [discriminate|exact Z].
    - intros _ K. discriminate (proj2 A' (or_intror K)).
    - reflexivity. }
  split; [|split].
  - intros c N. rewrite <- BB. destruct c; cbn [needs_build] in N; try contradiction; cbn [step]; unfold on_table; cbn [fst snd];
      rewrite OF', T'; cbn [negb]; destruct (t_built t'); cbn [negb]; try (split; intros K; reflexivity || discriminate K);
      try (destruct valid; cbn [snd]; split; discriminate); cbn [snd]; split; reflexivity || discriminate.
  - intros c ->. rewrite <- AA. cbn [step]. unfold on_table. cbn [fst snd]. rewrite OF', T'. cbn [negb snd].
    destruct (t_analyzed t'); cbn [negb]; split; reflexivity || discriminate.
  - exists t, t'. cbn [step snd]. rewrite OF, OF', T, T'. cbn [negb]. split; [reflexivity|]. split; [reflexivity|exact C'].
Qed.
Print Assumptions C49_table_flags.

(** A call that raises, other than fit, to_json and read_json, changes nothing; to_json never changes the object. *)
Theorem C49_failed_call_no_effect : forall e w c w' k, step e w c = (w', Err k) ->
  (match c with Fit _ | ToJson _ | ReadJson _ => False | _ => True end -> w' = w) /\
  (match c with ToJson _ => True | _ => False end -> fst w' = fst w).
Proof.
  intros e w c w' k H. split; [exact (failed_call e w c w' k H)|]. destruct c; try contradiction. intros _.
  destruct w as [o fs]. cbn [step] in H. destruct (to_json o fs p). injection H as <- _. reflexivity.
Qed.
Print Assumptions C49_failed_call_no_effect.

(** A failed read_json makes the object "fitted": binning_table then returns None and transform raises TypeError. *)
Theorem C49_failed_read_refuted : exists e w outs,
  exec e (new None None, ex_fs) [ReadJson 1] = (w, outs) /\ outs = [Err OtherError] /\
  snd (step e w Table) = Ok (VTable None) /\ snd (step e w Splits) = Ok (VSplits None) /\
  snd (step e w (Transform (Indices Empirical Empirical) [XNum 1])) = Err TypeError.
Proof. exists (ex_env' IV). eexists _, _. repeat split. Qed.
Print Assumptions C49_failed_read_refuted.

Example C49_hyps_met : exists w outs,
  exec (ex_env' IV) (new None None, ex_fs) [Splits; Fit (ex_d false); Statistic; Build false; Statistic; Build true; Statistic;
    QualityScore; Analysis true; QualityScore; Splits; Fit (ex_d false); Statistic] = (w, outs) /\
  outs = [Err NotFitted; Ok VNone; Err NotFitted; Err ValueError; Err NotFitted; Ok VNone; Ok VNone; Err NotFitted; Ok VNone;
          Ok VNone; Ok (VSplits (Some [4; 6])); Ok VNone; Err NotFitted].
Proof. eexists _, _. ev. Qed.

(** ** C50 *)

(** A file written without an exception is read back, into any object, as a table with the same contents. *)
Theorem C50_table_round_trip_partial : forall o fs p fs1 o2, to_json o fs p = (fs1, Ok tt) ->
  exists t o3 t', o_table o = Some t /\ read_json o2 fs1 p = (o3, Ok tt) /\ o_table o3 = Some t' /\ same_contents t t'.
Proof. exact C50_round_trip. Qed.
Print Assumptions C50_table_round_trip_partial.

(** to_json succeeds after a fit on floating-point data with list/dict special codes and no, or a list of, user splits. *)
Theorem C50_to_json_succeeds : forall e d o o1 fs p, fit e d o = (o1, Ok tt) -> o_fixed o = None ->
  (o_user o = None \/ exists s u, o_user o = Some (PyList, s :: u)) -> d_int d = false -> e_special_c e = PyList ->
  snd (to_json o1 fs p) = Ok tt.
Proof. exact C50_writes. Qed.
Print Assumptions C50_to_json_succeeds.

Theorem C50_other_files_kept : forall o fs p q, q <> p -> fst (to_json o fs p) q = fs q.
Proof. exact other_files. Qed.
Print Assumptions C50_other_files_kept.

(** After a fit on integer data to_json always raises TypeError, and leaves a truncated file, whatever was there. *)
Theorem C50_integer_data_fails : forall e d o o1 fs p, fit e d o = (o1, Ok tt) -> (forall c, o_user o <> Some (c, [])) ->
  d_int d = true -> to_json o1 fs p = (fwrite fs p Truncated, Err TypeError).
Proof. exact C50_integers. Qed.
Print Assumptions C50_integer_data_fails.

(** Saving an object that was loaded always raises TypeError and truncates the target file (possibly the one loaded). *)
Theorem C50_resave_fails : forall o fs p o1 q, read_json o fs p = (o1, Ok tt) ->
  to_json o1 fs q = (fwrite fs q Truncated, Err TypeError).
Proof. exact C50_resave. Qed.
Print Assumptions C50_resave_fails.

(** transform ignores what read_json loaded: on an object never fitted it raises TypeError, on a fitted object it gives
    the same results as before. *)
Theorem C50_transform_ignores_file : forall e user fixed fs0 h o fs outs p o1 r m xs,
  exec e (new user fixed, fs0) h = ((o, fs), outs) -> read_json o fs p = (o1, r) ->
  (~ called is_fit h -> transform e o1 m xs = Err TypeError) /\
  (o_fitted o = true -> transform e o1 m xs = transform e o m xs).
Proof.
  intros e user fixed fs0 h o fs outs p o1 r m xs H R. split.
  - intros N. pose proof (fresh_splits e h _ _ _ H N) as S. cbn [fst new o_splits] in S.
    unfold transform. rewrite (read_fitted _ _ _ _ _ R). cbn [negb].
    assert (E : o_splits o1 = o_splits o). { unfold read_json in R. destruct (fs p) as [[j|]|]; injection R as <- <-; reflexivity. }
    rewrite E, S. reflexivity.
  - intros F. pose proof (C50_transform e o fs p o1 r m xs R) as K. rewrite F in K. exact K.
Qed.
Print Assumptions C50_transform_ignores_file.

Theorem C50_transform_refuted : exists e d o1 fs1 o3,
  fit e d (new None None) = (o1, Ok tt) /\ to_json o1 ex_fs 1 = (fs1, Ok tt) /\
  read_json (new None None) fs1 1 = (o3, Ok tt) /\
  transform e o1 (Indices Empirical Empirical) [XNum 5] = Ok (AIndex [1]) /\
  transform e o3 (Indices Empirical Empirical) [XNum 5] = Err TypeError.
Proof. exists (ex_env' IV), (ex_d false). eexists _, _, _. ev. Qed.
Print Assumptions C50_transform_refuted.

Example C50_hyps_met : exists o1 fs1 o3, fit (ex_env' IV) (ex_d false) (new (Some (PyList, [4; 6])) None) = (o1, Ok tt) /\
  to_json o1 ex_fs 1 = (fs1, Ok tt) /\ read_json o1 fs1 1 = (o3, Ok tt) /\
  exists o2, fit (ex_env' IV) (ex_d true) (new (Some (PyList, [4; 6])) None) = (o2, Ok tt) /\ snd (to_json o2 fs1 1) = Err TypeError.
Proof. eexists _, _, _. split; [ev|]. split; [ev|]. split; [ev|]. eexists. ev. Qed.

(** ** C59 *)

(** A refit that raises leaves the results of the previous fit in force, if the new data have a clean record. *)
Theorem C59_failed_refit_keeps_results_partial : forall e d o o' k, answers_fit e ->
  length (d_x d) = length (d_y d) -> length (d_x d) = length (d_w d) ->
  has_clean e d -> (forall c, o_user o <> Some (c, [])) -> fit e d o = (o', Err k) -> same_answers e o o'.
Proof. exact C59_failed. Qed.
Print Assumptions C59_failed_refit_keeps_results_partial.

Definition ex_fail : env := mkE 1 IV SpNone PyList
  (fun cs => match cs with [] => Ok [] | [_] => Err ValueError | _ => Ok [4] end)
  (fun _ _ _ nev _ => match nev with [] => Err ValueError | _ => Ok (0, repeat true (length nev)) end).
Example C59_hyps_met : exists o1 o2,
  fit ex_fail (ex_d false) (new None None) = (o1, Ok tt) /\
  fit ex_fail (mkD [XNum 3] [Y1] [1] false) o1 = (o2, Err ValueError) /\ has_clean ex_fail (mkD [XNum 3] [Y1] [1] false).
Proof.
  eexists _, _. split; [vm_compute; reflexivity|]. split; [vm_compute; reflexivity|].
  exists 0%nat, (XNum 3), Y1, 1. repeat split; [exists 3; reflexivity|intros []|discriminate].
Qed.

(** When the new data have no clean record, the failed refit leaves an object whose splits and transform no longer match its
    binning table. *)
Theorem C59_failed_refit_mixes_results_refuted : exists e d d2 o1 o2 t,
  fit e d (new (Some (PyList, [4])) None) = (o1, Ok tt) /\ fit e d2 o1 = (o2, Err ValueError) /\
  snd (step e (o2, ex_fs) Splits) = Ok (VSplits (Some [])) /\
  snd (step e (o2, ex_fs) Table) = Ok (VTable (Some t)) /\ t_splits t = [4] /\ t_nev t = [1; 2; 1; 0] /\
  snd (step e (o1, ex_fs) (Transform (Indices Empirical Empirical) [XNum 5])) = Ok (VAnswer (AIndex [1])) /\
  snd (step e (o2, ex_fs) (Transform (Indices Empirical Empirical) [XNum 5])) = Ok (VAnswer (AIndex [0])).
Proof.
  exists (ex_env' IV), (ex_d false), (mkD [XNaN; XNaN] [Y0; Y1] [1; 1] false). eexists _, _, _.
  ev.
Qed.
Print Assumptions C59_failed_refit_mixes_results_refuted.

(** ** C06 for user splits given in any order: each split marked fixed is one of the split points of an optimal fit. *)
Theorem C06_user_splits_any_order : forall e d o o1 np f c u, answers_fit e -> keeps_fixed e ->
  o_fixed o = Some (np, f) -> o_user o = Some (c, u) ->
  fit e d o = (o1, Ok tt) -> o_status o1 = Some 0 ->
  exists c' sp, o_splits o1 = Some (c', sp) /\
    forall i s, nth_error u i = Some s -> nth_error f i = Some true -> In s sp.
Proof. exact C06_any. Qed.
Print Assumptions C06_user_splits_any_order.

(** A solver that merges every bin it may merge: user splits [8; 6; 4] with only the first fixed leave [8]. *)
Fixpoint ex_keep (f : list bool) (n : nat) : list bool :=
  match n with
  | O => []
  | S O => [true]
  | S m => match f with [] => false :: ex_keep [] m | b :: f => b :: ex_keep f m end
  end.
Definition ex_fixed_env : env := mkE 1 HELLINGER SpNone PyList (fun _ => Ok [4; 6; 8])
  (fun f _ _ nev _ => match nev with [] => Err ValueError
     | _ => Ok (0, ex_keep (match f with Some f => f | None => [] end) (length nev)) end).
Example C06_any_order_hyps_met : answers_fit ex_fixed_env /\ keeps_fixed ex_fixed_env /\
  exists o1, fit ex_fixed_env (ex_d false) (new (Some (PyList, [8; 6; 4])) (Some (false, [true; false; false]))) = (o1, Ok tt) /\
    o_status o1 = Some 0 /\ o_splits o1 = Some (NdArray, [8]).
Proof.
  assert (L : forall n f, length (ex_keep f n) = n).
  { induction n as [|[|n] IH]; intros f; [reflexivity..|]. destruct f as [|b f]; [exact (f_equal S (IH []))|exact (f_equal S (IH f))]. }
  assert (T : forall n f, last (ex_keep f (S n)) false = true).
  { induction n as [|n IH]; intros f; [reflexivity|].
    assert (E : forall b f, last (b :: ex_keep f (S n)) false = true).
    { intros b g. specialize (IH g). specialize (L (S n) g). destruct (ex_keep g (S n)); [discriminate|exact IH]. }
    destruct f; apply E. }
  assert (K : forall n f i, (length f < n)%nat -> nth_error f i = Some true -> nth_error (ex_keep f n) i = Some true).
  { induction n as [|[|n] IH]; intros [|b f] i Hl Hi; try (destruct i; discriminate); cbn [length] in Hl; try lia.
    destruct i as [|i]; [exact Hi|]. apply (IH f i); [lia|exact Hi]. }
  split; [|split].
  - intros f b n nev ev st sol H. cbn [e_solver ex_fixed_env] in H. destruct nev as [|a r]; [discriminate|].
    injection H as <- <-. split; [exact (L (S (length r)) _)|exact (T (length r) _)].
  - intros f b n nev ev st sol Hl H _ i Hi. cbn [e_solver ex_fixed_env] in H. destruct nev as [|a r]; [discriminate|].
    injection H as <- <-. exact (K (S (length r)) f i Hl Hi).
  - eexists. ev.
Qed.
