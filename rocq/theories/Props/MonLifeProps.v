(** C76: the ScorecardMonitoring object. *)
From Coq Require Import List ZArith QArith Bool Arith Lia Reals Lra Sorting.
From Verif Require Import Model.Arr Model.Core Model.Multi Model.Metrics Model.MultiT Model.MultiTable Model.Process Model.Classif Model.Monitor Model.MonLife
  Spec.CoreSpec Spec.MonitorSpec Spec.ClassifSpec Spec.MonLifeSpec Proofs.ArrP Proofs.CoreP Proofs.MonitorP Proofs.MultiP Proofs.IndepP Proofs.MonLifeP Proofs.MonLifeQ Proofs.ClassifP Props.MonitorProps Props.ClassifProps.
Import ListNotations.
Open Scope Z_scope.

(** Every read raises NotFittedError until a fit has succeeded; from then on every read answers, unless the style is invalid or the name is
    not a variable of the scorecard. *)
Theorem C76_not_fitted : forall u sc o ops,
  (~ fitted_by (new_mon u sc o) ops -> forall q, answer u (mrun u (new_mon u sc o) ops) q = Err NotFitted) /\
  (fitted_by (new_mon u sc o) ops -> forall q, (exists a, answer u (mrun u (new_mon u sc o) ops) q = Ok a) \/
     answer u (mrun u (new_mon u sc o) ops) q = Err ValueError /\
     exists nm st, q = QVars nm st /\ (st = None \/ exists x, nm = Some x /\ ~ In x (sc_support (mw_sc u (mrun u (new_mon u sc o) ops))))).
Proof.
  intros u sc o ops. pose proof (run_flag u ops (new_mon u sc o) eq_refl) as HF. split.
  - intros N q. unfold answer. destruct (ms_fitted _) eqn:E; [exfalso; apply N; now apply HF|reflexivity].
  - intros H q. apply HF in H. pose proof (run_complete u ops (new_mon u sc o) ltac:(discriminate) H) as (C1 & C2 & C3 & C4 & C5 & C6).
    set (w := mrun u (new_mon u sc o) ops) in *. unfold answer. rewrite H. cbn [negb].
    destruct (ms_psi (mw_s u w)) as [[sp rows]|]; [|congruence]. destruct (ms_tests (mw_s u w)); [|congruence]. destruct (ms_target (mw_s u w)); [|congruence]. destruct (ms_perf (mw_s u w)); [|congruence].
    destruct (ms_splits (mw_s u w)); [|congruence]. destruct (ms_vars (mw_s u w)) as [v|]; [|congruence].
    destruct q as [| | | |nm st]; try (left; eexists; reflexivity). destruct st as [d|]; [|right; split; [reflexivity|]; exists nm, None; auto].
    destruct nm as [x|]; [|left; eexists; reflexivity]. destruct (zmem x (sc_support (mw_sc u w))) eqn:E; cbn [negb]; [left; eexists; reflexivity|].
    right. split; [reflexivity|]. exists (Some x), (Some d). split; [reflexivity|]. right. exists x. split; [reflexivity|]. intros I. apply not_true_iff_false in E. apply E. unfold zmem. apply existsb_exists. exists x. split; [exact I|apply Z.eqb_refl].
Qed.
Print Assumptions C76_not_fitted.

(** Whether a fit succeeds does not depend on the history of the object, and after a successful fit the object is the one a new object
    would be after the same fit. *)
Theorem C76_fit_forgets_history : forall u sc o Xa ya Xe ye s,
  snd (fit_mon u sc o Xa ya Xe ye s) = snd (fit_mon u sc o Xa ya Xe ye fresh_mon) /\
  (snd (fit_mon u sc o Xa ya Xe ye s) = Ok tt -> fst (fit_mon u sc o Xa ya Xe ye s) = fst (fit_mon u sc o Xa ya Xe ye fresh_mon)).
Proof. intros. split; [apply fit_outcome|]. intros H. now apply fit_forgets. Qed.
Print Assumptions C76_fit_forgets_history.

(** Changing parameters changes no answer; neither does refitting the scorecard, except for queries by name. *)
Theorem C76_only_fit_changes_answers : forall u w o sc q,
  answer u (mstep u w (SetParams o)) q = answer u w q /\
  ((forall x st, q <> QVars (Some x) st) -> answer u (mstep u w (RefitScorecard sc)) q = answer u w q).
Proof.
  intros u w o sc q. split; [reflexivity|]. intros H. unfold answer. cbn [mstep mw_s mw_sc]. destruct (ms_fitted (mw_s u w)); [|reflexivity]. cbn [negb]. destruct q as [| | | |[x|] st]; try reflexivity. exfalso. now apply (H x st).
Qed.
Print Assumptions C76_only_fit_changes_answers.

(** Binary target: what the tables show after a successful fit. *)
Theorem C76_binary_tables : forall u sc o Xa ya Xe ye s s',
  (forall op z y l, u_prebin u op z y = Ok l -> increasing l) ->
  fit_mon u sc o Xa (YBin ya) Xe (YBin ye) s = (s', Ok tt) ->
  exists za ze splits rows tests,
    sc_score sc Xa = Ok za /\ sc_score sc Xe = Ok ze /\ u_prebin u o ze (YBin ye) = Ok splits /\ length za = length ya /\ length ze = length ye /\
    (forall sc' o', let w := mkMW u sc' o' s' in
       answer u w QPsi = Ok (APsi splits rows (psi_column rows) (psi_total rows)) /\ answer u w QTests = Ok (ATests (TBin tests)) /\ answer u w QSplits = Ok (ASplits splits)) /\
    length rows = S (length splits) /\ length tests = S (length splits) /\
    zsum (map fst rows) = Z.of_nat (length ya) /\ zsum (map snd rows) = Z.of_nat (length ye) /\
    (forall i, (i < S (length splits))%nat -> exists na ne ea ee row,
       nth_error rows i = Some (na, ne) /\ nth_error tests i = Some row /\
       n_where (in_score_bin splits i) (combine ya za) na /\ n_where (in_score_bin splits i) (combine ye ze) ne /\
       n_where (event_in_bin splits i) (combine ya za) ea /\ n_where (event_in_bin splits i) (combine ye ze) ee /\
       0 < na /\ 0 < ne /\ 0 < ea + ee < na + ne /\
       bt_na row = na /\ bt_ne row = ne /\ bt_ra row = (inject_Z ea / inject_Z na)%Q /\ bt_re row = (inject_Z ee / inject_Z ne)%Q /\
       (0 <= bt_stat row)%R /\ (bt_stat row = 0%R <-> ea * ne = ee * na)) /\
    (exists v, psi_total rows = XFin v /\ (0 <= v)%R /\ (v = 0%R <-> same_distribution rows)).
Proof.
  intros u sc o Xa ya Xe ye s s' Hinc Hfit. destruct (fit_binary_ok u sc o Xa ya Xe ye s s' Hfit) as (za & ze & splits & t & p & v & E1 & E2 & E3 & La & Le & Et & _ & _ & ->).
  specialize (Hinc _ _ _ _ E3). set (a := combine ya za) in *. set (e := combine ye ze) in *.
  destruct (tests_ok splits Hinc a e (bins_of splits) t Et) as [Lt Nt].
  assert (Ra : length (sys_records splits a) = S (length splits)) by (unfold sys_records; now rewrite map_length, seq_length).
  assert (Re : length (sys_records splits e) = S (length splits)) by (unfold sys_records; now rewrite map_length, seq_length).
  exists za, ze, splits, (sys_rows splits a e), t. do 5 (split; [assumption|]). split; [intros sc' o' w; split; [|split]; reflexivity|].
  assert (Lr : length (sys_rows splits a e) = S (length splits)) by (unfold sys_rows; rewrite map2_len; congruence).
  split; [exact Lr|]. split; [rewrite Lt; unfold bins_of; apply seq_length|].
  assert (Ca : length a = length ya) by (unfold a; rewrite combine_length; lia). assert (Ce : length e = length ye) by (unfold e; rewrite combine_length; lia).
  split; [unfold sys_rows; rewrite map2_fst by congruence; rewrite (proj1 (C43_system_counts_everything splits a Hinc)); f_equal; exact Ca|].
  split; [unfold sys_rows; rewrite map2_snd by congruence; rewrite (proj1 (C43_system_counts_everything splits e Hinc)); f_equal; exact Ce|].
  assert (Nr : forall i, (i < S (length splits))%nat -> nth_error (sys_rows splits a e) i = Some (sys_nonevent splits a i + sys_event splits a i, sys_nonevent splits e i + sys_event splits e i)).
  { intros i Hi. unfold sys_rows. apply nth_error_map2; unfold sys_records; rewrite nth_error_map; fold (bins_of splits); rewrite (bins_nth splits i Hi); reflexivity. }
  assert (Rows : forall i, (i < S (length splits))%nat -> populated splits a e i) by (intros i Hi; apply (Nt i i (bins_nth splits i Hi))).
  split.
  - intros i Hi. destruct (Nt i i (bins_nth splits i Hi)) as (P & t0 & Et0 & Nt0). pose proof P as P'. apply (populated_counts splits Hinc) in P' as (P1 & P2 & P3 & P4).
    destruct (test_ok splits Hinc a e i P) as (t1 & Et1 & T1 & T2). assert (t1 = t0) by congruence. subst t1.
    exists (sys_nonevent splits a i + sys_event splits a i), (sys_nonevent splits e i + sys_event splits e i), (sys_event splits a i), (sys_event splits e i). eexists.
    split; [exact (Nr i Hi)|]. split; [exact Nt0|]. split; [now apply record_where|]. split; [now apply record_where|]. split; [now apply event_where|]. split; [now apply event_where|].
    cbn [bt_na bt_ne bt_ra bt_re bt_stat]. do 2 (split; [assumption|]). split; [lia|]. do 4 (split; [reflexivity|]). split; [exact T1|]. rewrite T2. lia.
  - assert (Hpos : all_positive (sys_rows splits a e)).
    { intros r Hr. apply In_nth_error in Hr as (i & Hi). assert (Hl : (i < S (length splits))%nat) by (rewrite <- Lr; apply nth_error_Some; congruence). rewrite (Nr i Hl) in Hi. injection Hi as <-. cbn [fst snd].
      apply Rows, (populated_counts splits Hinc) in Hl. lia. }
    assert (Hne : sys_rows splits a e <> []) by (intros E; rewrite E in Lr; discriminate).
    destruct (C43_psi_divergence _ Hne Hpos) as (_ & x & X1 & X2 & _ & X3). eauto.
Qed.
Print Assumptions C76_binary_tables.

(** The fit is refused when a score bin is not populated: ValueError from scipy after the PSI table was replaced, before the tests and the
    variable tables are. So a population that leaves a score bin cannot be monitored. *)
Theorem C76_unpopulated_bin_fails_refuted : forall u sc o Xa ya Xe ye s za ze splits i,
  u_check u o = true -> sc_fitted sc = true -> u_columns u Xa = u_columns u Xe -> increasing splits ->
  sc_score sc Xa = Ok za -> sc_score sc Xe = Ok ze -> u_prebin u o ze (YBin ye) = Ok splits -> length za = length ya -> length ze = length ye ->
  (i < S (length splits))%nat -> ~ populated splits (combine ya za) (combine ye ze) i ->
  let s' := fst (fit_mon u sc o Xa (YBin ya) Xe (YBin ye) s) in
  snd (fit_mon u sc o Xa (YBin ya) Xe (YBin ye) s) = Err ValueError /\
  ms_psi s' = Some (splits, sys_rows splits (combine ya za) (combine ye ze)) /\
  ms_tests s' = ms_tests s /\ ms_vars s' = ms_vars s /\ ms_splits s' = ms_splits s /\ ms_fitted s' = ms_fitted s.
Proof.
  intros u sc o Xa ya Xe ye s za ze splits i H1 H2 H3 Hs E1 E2 E3 La Le Hi N.
  assert (Hn : forall l, names_eqb l l = true) by (induction l as [|x l IH]; [reflexivity|]; cbn; now rewrite Z.eqb_refl).
  unfold fit_mon, fit_binary. rewrite H1, H2, H3, Hn. cbn [negb type_of dtype_eqb]. rewrite E1, E2, E3, La, Le, !Nat.eqb_refl. cbn [negb andb].
  rewrite (tests_fail splits Hs _ _ (bins_of splits) i); [|unfold bins_of; apply in_seq; lia|exact N]. cbn. repeat split.
Qed.
Print Assumptions C76_unpopulated_bin_fails_refuted.

(** Variables: one table per variable of the scorecard, in its order; by name the rows of that variable; the summary has the variables in
    sorted order, each once, with the sum of its PSI column (nan skipped). *)
Theorem C76_variable_tables : forall u sc o Xa ya Xe ye s s',
  fit_mon u sc o Xa ya Xe ye s = (s', Ok tt) -> NoDup (sc_support sc) ->
  exists v, map fst v = sc_support sc /\
    (forall nm rows, In (nm, rows) v -> exists ta te, sc_indices sc nm Xa = Ok ta /\ sc_indices sc nm Xe = Ok te /\ te <> [] /\ rows = var_rows ta te) /\
    forall o', let w := mkMW u sc o' s' in
      answer u w (QVars None (Some true)) = Ok (ADetailed (map (fun e => (fst e, with_psi (snd e))) v)) /\
      (exists l, answer u w (QVars None (Some false)) = Ok (ASummary l) /\ increasing (map fst l) /\ forall nm x, In (nm, x) l <-> exists rows, In (nm, rows) v /\ x = psi_summary rows) /\
      (forall nm rows, In (nm, rows) v -> answer u w (QVars (Some nm) (Some true)) = Ok (ADetailed [(nm, with_psi rows)]) /\ answer u w (QVars (Some nm) (Some false)) = Ok (ASummary [(nm, psi_summary rows)])) /\
      (forall nm st, ~ In nm (sc_support sc) -> answer u w (QVars (Some nm) st) = Err ValueError).
Proof.
  intros u sc o Xa ya Xe ye s s' Hfit Hnd.
  assert (H : exists v, fit_vars sc Xa Xe = Ok v /\ ms_vars s' = Some v /\ ms_fitted s' = true).
  { destruct ya as [ya|ya|], ye as [ye|ye|].
    - destruct (fit_binary_ok _ _ _ _ _ _ _ _ _ Hfit) as (za & ze & sp & t & p & v & _ & _ & _ & _ & _ & _ & _ & Ev & ->). exists v. auto.
    - unfold fit_mon in Hfit. cbn [type_of dtype_eqb negb] in Hfit. destruct (negb (u_check u o)); [discriminate|]. destruct (negb (sc_fitted sc)); discriminate.
    - unfold fit_mon in Hfit. cbn [type_of dtype_eqb negb] in Hfit. destruct (negb (u_check u o)); [discriminate|]. destruct (negb (sc_fitted sc)); discriminate.
    - unfold fit_mon in Hfit. cbn [type_of dtype_eqb negb] in Hfit. destruct (negb (u_check u o)); [discriminate|]. destruct (negb (sc_fitted sc)); discriminate.
    - destruct (fit_cont_ok _ _ _ _ _ _ _ _ _ Hfit) as (za & ze & sp & p & v & _ & _ & _ & _ & _ & _ & Ev & ->). exists v. auto.
    - unfold fit_mon in Hfit. cbn [type_of dtype_eqb negb] in Hfit. destruct (negb (u_check u o)); [discriminate|]. destruct (negb (sc_fitted sc)); discriminate.
    - unfold fit_mon in Hfit. cbn [type_of dtype_eqb negb] in Hfit. destruct (negb (u_check u o)); [discriminate|]. destruct (negb (sc_fitted sc)); discriminate.
    - unfold fit_mon in Hfit. cbn [type_of dtype_eqb negb] in Hfit. destruct (negb (u_check u o)); [discriminate|]. destruct (negb (sc_fitted sc)); discriminate.
    - unfold fit_mon in Hfit. cbn [type_of dtype_eqb negb] in Hfit. destruct (negb (u_check u o)); [discriminate|]. destruct (negb (sc_fitted sc)); discriminate. }
  destruct H as (v & Ev & Hv & Hf). destruct (fit_vars_spec sc Xa Xe v Ev) as (N & _ & R). exists v. split; [exact N|]. split; [exact R|]. intros o' w.
  assert (ND : NoDup (map fst v)) by (now rewrite N).
  assert (Z1 : forall nm, zmem nm (sc_support sc) = true <-> In nm (sc_support sc)).
  { intros nm. unfold zmem. rewrite existsb_exists. split; [intros (x & I & E); apply Z.eqb_eq in E; now subst x|intros I; exists nm; split; [exact I|apply Z.eqb_refl]]. }
  assert (One : forall nm rows, In (nm, rows) v -> xsum_skipna (flat_map (fun e => psi_column (snd e)) (filter (fun e => Z.eqb (fst e) nm) v)) = psi_summary rows).
  { intros nm rows I. rewrite (filter_name v nm rows ND I). cbn [flat_map snd]. now rewrite app_nil_r. }
  unfold answer, w. cbn [mw_s mw_sc]. rewrite Hf, Hv. cbn [negb]. split; [reflexivity|]. split; [|split].
  - eexists. split; [reflexivity|]. unfold group_sum. split.
    + rewrite map_map. cbn [fst]. rewrite map_id. apply np_unique_sorted.
    + intros nm x. rewrite in_map_iff. split.
      * intros (k & [= -> <-] & I). apply (proj1 (np_unique_In _ _)) in I. apply in_map_iff in I as ((k & rows) & E & I). cbn [fst] in E. subst k. exists rows. split; [exact I|]. now apply One.
      * intros (rows & I & ->). exists nm. split; [f_equal; now apply One|]. apply (proj2 (np_unique_In _ _)). apply in_map_iff. exists (nm, rows). auto.
  - intros nm rows I. assert (In nm (sc_support sc)) as J by (rewrite <- N; apply in_map_iff; exists (nm, rows); auto). rewrite (proj2 (Z1 nm) J). cbn [negb]. rewrite (filter_name v nm rows ND I). split; [reflexivity|].
    unfold group_sum. cbn [map fst]. change (np_unique [nm]) with [nm]. cbn [map filter fst]. rewrite Z.eqb_refl. cbn [flat_map snd]. now rewrite app_nil_r.
  - intros nm st I. destruct st; [|reflexivity]. destruct (zmem nm (sc_support sc)) eqn:E; [exfalso; now apply I, Z1|reflexivity].
Qed.
Print Assumptions C76_variable_tables.

(** Queries by name are checked against the scorecard of today: refitting it with other variables makes the stored table of a monitored
    variable unreadable by name, and returns an empty table for a variable that was never monitored. *)
Theorem C76_refitted_scorecard_refuted : forall u sc o s v sc2, ms_fitted s = true -> ms_vars s = Some v ->
  let w := mstep u (mkMW u sc o s) (RefitScorecard sc2) in
  (forall nm st, In nm (map fst v) -> ~ In nm (sc_support sc2) -> answer u w (QVars (Some nm) st) = Err ValueError) /\
  (forall nm, In nm (sc_support sc2) -> ~ In nm (map fst v) ->
     answer u w (QVars (Some nm) (Some true)) = Ok (ADetailed []) /\ answer u w (QVars (Some nm) (Some false)) = Ok (ASummary [])).
Proof.
  intros u sc o s v sc2 Hf Hv w. unfold answer, w. cbn [mstep mw_s mw_sc]. rewrite Hf, Hv. cbn [negb].
  assert (Z1 : forall nm, zmem nm (sc_support sc2) = true <-> In nm (sc_support sc2)).
  { intros nm. unfold zmem. rewrite existsb_exists. split; [intros (x & I & E); apply Z.eqb_eq in E; now subst x|intros I; exists nm; split; [exact I|apply Z.eqb_refl]]. }
  split.
  - intros nm st _ N. destruct st; [|reflexivity]. destruct (zmem nm (sc_support sc2)) eqn:E; [exfalso; now apply N, Z1|reflexivity].
  - intros nm I N. rewrite (proj2 (Z1 nm) I). cbn [negb]. rewrite (filter_absent v nm N). split; reflexivity.
Qed.
Print Assumptions C76_refitted_scorecard_refuted.

(** Continuous target: the tables after a successful fit. Empty bins are accepted: their mean is nan. *)
Lemma select_filter {A B} (p : B -> bool) : forall (zs : list B) (ys : list A), length zs = length ys ->
  select (map p zs) ys = map fst (filter (fun s => p (snd s)) (combine ys zs)).
Proof.
  induction zs as [|z zs IH]; intros [|y ys] L; try discriminate; [reflexivity|]. cbn [map select combine filter snd]. injection L as L. destruct (p z); cbn [map fst]; [f_equal|]; now apply IH.
Qed.
Theorem C76_continuous_tables : forall u sc o Xa ya Xe ye s s',
  (forall op z y l, u_prebin u op z y = Ok l -> increasing l) ->
  fit_mon u sc o Xa (YCont ya) Xe (YCont ye) s = (s', Ok tt) ->
  exists za ze splits rows tests,
    sc_score sc Xa = Ok za /\ sc_score sc Xe = Ok ze /\ u_prebin u o ze (YCont ye) = Ok splits /\ length za = length ya /\ length ze = length ye /\
    (forall sc' o', let w := mkMW u sc' o' s' in
       answer u w QPsi = Ok (APsi splits rows (psi_column rows) (psi_total rows)) /\ answer u w QTests = Ok (ATests (TCont tests)) /\ answer u w QSplits = Ok (ASplits splits)) /\
    length rows = S (length splits) /\ length tests = S (length splits) /\
    forall i, (i < S (length splits))%nat -> exists na ne row, nth_error rows i = Some (na, ne) /\ nth_error tests i = Some row /\
      n_where (in_right_bin_i splits i) za na /\ n_where (in_right_bin_i splits i) ze ne /\ ct_na row = na /\ ct_ne row = ne /\
      mean_in_bin splits (combine ya za) i (ct_ma row) /\ mean_in_bin splits (combine ye ze) i (ct_me row).
Proof.
  intros u sc o Xa ya Xe ye s s' Hinc Hfit. destruct (fit_cont_ok u sc o Xa ya Xe ye s s' Hfit) as (za & ze & splits & p & v & E1 & E2 & E3 & La & Le & _ & _ & ->).
  specialize (Hinc _ _ _ _ E3). eexists za, ze, splits, _, _. do 5 (split; [assumption|]). split; [intros sc' o' w; split; [|split]; reflexivity|].
  assert (Lc : forall z, length (cont_counts splits z) = S (length splits)) by (intros z; unfold cont_counts, bins_of; now rewrite map_length, seq_length).
  split; [rewrite map2_len; rewrite ?Lc; reflexivity|]. split; [rewrite map_length; unfold bins_of; apply seq_length|]. intros i Hi.
  assert (W : forall z, n_where (in_right_bin_i splits i) z (cont_records splits z i)).
  { intros z. unfold cont_records, count_if. eexists. split; [|reflexivity]. intros x. cbv beta. rewrite Nat.eqb_eq. now apply digitize_r_in_bin. }
  assert (Mean : forall y z, length z = length y -> mean_in_bin splits (combine y z) i (mean_at splits y z i)).
  { intros y z L. exists (fun x => Nat.eqb (digitize_r splits (snd x)) i). split; [intros x; rewrite Nat.eqb_eq; now apply digitize_r_in_bin|].
    unfold mean_at. rewrite (select_filter (fun x => Nat.eqb (digitize_r splits x) i) z y L). destruct (filter _ (combine y z)) as [|x l]; [reflexivity|]. cbn [map]. rewrite <- (map_length fst (x :: l)). reflexivity. }
  exists (cont_records splits za i), (cont_records splits ze i). eexists.
  split; [apply nth_error_map2; unfold cont_counts; rewrite nth_error_map, (bins_nth splits i Hi); reflexivity|].
  split; [rewrite nth_error_map, (bins_nth splits i Hi); reflexivity|]. cbn [ct_na ct_ne ct_ma ct_me]. do 2 (split; [apply W|]). do 2 (split; [reflexivity|]). split; now apply Mean.
Qed.
Print Assumptions C76_continuous_tables.

(** The report: the verdict follows the PSI total (infinite and nan totals are "significance change"), and the counts of bins by PSI add up;
    they follow the printed intervals when no PSI equals a threshold. *)
Definition psi_class (x : xreal) (k : nat) : Prop :=
  match x with
  | XFin r => match k with 0%nat => (r < 1 / 10)%R | 1%nat => (1 / 10 <= r < 1 / 4)%R | _ => k = 2%nat /\ (1 / 4 <= r)%R end
  | _ => k = 2%nat
  end.
Lemma class_left_spec x k : class_left x = k <-> psi_class x k.
Proof.
  unfold class_left, psi_class, xge. destruct x as [r| |]; [|split; intros; subst; reflexivity|split; intros; subst; reflexivity].
  destruct (Rle_dec (1 / 10) r) as [A|A], (Rle_dec (1 / 4) r) as [B|B]; cbn [Nat.add]; split; intros H; try (subst k); try lra; try (destruct k as [|[|k]]; [lra|lra|destruct H as [-> H]; try lra; reflexivity]); auto;
    destruct k as [|[|k]]; try lra; try reflexivity; destruct H as [-> H]; lra.
Qed.
Theorem C76_report : forall rows,
  psi_class (psi_total rows) (verdict rows) /\
  zsum (psi_bins rows) = Z.of_nat (length rows) /\
  ((forall r, In (XFin r) (psi_column rows) -> r <> 1 / 10 /\ r <> 1 / 4)%R ->
   forall k c, nth_error (psi_bins rows) k = Some c -> n_where (fun x => psi_class x k) (psi_column rows) c).
Proof.
  intros rows. split; [apply class_left_spec; reflexivity|]. split.
  - assert (L : length rows = length (psi_column rows)) by (unfold psi_column; now rewrite map_length). rewrite L. unfold psi_bins. generalize (psi_column rows). clear. intros l. cbn [seq map zsum].
    induction l as [|x l IH]; [reflexivity|]. unfold count_if in *. cbn [filter]. assert (C : class_right x = 0%nat \/ class_right x = 1%nat \/ class_right x = 2%nat).
    { unfold class_right. destruct (xgt x (1 / 10)), (xgt x (1 / 4)); auto. }
    destruct C as [-> | [-> | ->]]; cbn [Nat.eqb length]; lia.
  - intros Hb k c Hc. assert (Hk : (k < 3)%nat) by (replace 3%nat with (length (psi_bins rows)) by reflexivity; apply nth_error_Some; congruence).
    unfold psi_bins in Hc. rewrite nth_error_map, (nth_error_nth' (seq 0 3) 0%nat) in Hc by exact Hk. rewrite seq_nth in Hc by exact Hk. cbn [option_map Nat.add] in Hc. injection Hc as <-.
    exists (fun x => Nat.eqb (class_left x) k). split; [intros x; rewrite Nat.eqb_eq; apply class_left_spec|]. unfold count_if. f_equal. f_equal.
    apply filter_ext_in. intros x Hx. f_equal. unfold class_right, class_left. destruct x as [r| |]; [|reflexivity|reflexivity]. destruct (Hb r Hx) as [B1 B2]. cbn [xgt xge].
    destruct (Rlt_dec (1 / 10) r), (Rle_dec (1 / 10) r), (Rlt_dec (1 / 4) r), (Rle_dec (1 / 4) r); try reflexivity; exfalso; lra.
Qed.
Print Assumptions C76_report.

(** The report of a binary fit: its PSI and tests are those of the tables; the target table shows the true numbers of records, events and
    non-events; the performance table shows the metrics of the predictions of each data set. *)
Lemma gini_side_ok {F} (sc : scard F) X y0 p : sc_proba sc X = Ok p -> length p = length y0 -> forall g, gini_side sc X y0 = Ok g ->
  let d := combine (map negb y0) p in let n := Z.of_nat (length (events d)) * Z.of_nat (length (nonevents d)) in
  if n =? 0 then g = None else exists q, g = Some q /\ (q == inject_Z (concordant d - discordant d) / inject_Z n)%Q.
Proof.
  intros E L g H d n. unfold gini_side in H. rewrite E, L, Nat.eqb_refl in H. cbn [negb] in H. cbv zeta in H. fold d in H. injection H as <-. rewrite n_event_len, n_nonevent_len. fold n. destruct (Z.eqb_spec n 0) as [|N]; [reflexivity|].
  eexists. split; [reflexivity|]. apply C44_gini_counts_pairs; intros H; apply N; unfold n; rewrite H; cbn [length Z.of_nat]; lia.
Qed.
Lemma perf_sides {F} (sc : scard F) Xa ya Xe ye p : perf_binary sc Xa ya Xe ye = Ok p ->
  exists ma ga me ge, p = PBin (ma, ga) (me, ge) /\ performance_of sc Xa ya ma ga /\ performance_of sc Xe ye me ge.
Proof.
  unfold perf_binary, rbind. destruct (perf_side sc Xa ya) as [ma|] eqn:A; [|discriminate]. destruct (perf_side sc Xe ye) as [me|] eqn:B; [|discriminate].
  destruct (gini_side sc Xa ya) as [ga|] eqn:C; [|discriminate]. destruct (gini_side sc Xe ye) as [ge|] eqn:D; [|discriminate]. intros [= <-]. exists ma, ga, me, ge. split; [reflexivity|].
  assert (G : forall X y m g, perf_side sc X y = Ok m -> gini_side sc X y = Ok g -> performance_of sc X y m g).
  { intros X y m g P Q. unfold perf_side in P. destruct (sc_pred sc X) as [pr|] eqn:E1; [|discriminate]. destruct (Nat.eqb_spec (length pr) (length y)) as [L1|]; [|discriminate]. cbn [negb] in P.
    destruct (imbalanced_metrics _) as [m'|] eqn:E2; [|discriminate]. injection P as ->. pose proof Q as Q'. unfold gini_side in Q'. destruct (sc_proba sc X) as [pb|] eqn:E3; [|discriminate].
    destruct (Nat.eqb_spec (length pb) (length y)) as [L2|]; [|discriminate]. exists pr, pb. do 4 (split; [assumption || reflexivity|]). split; [exact E2|]. now apply (gini_side_ok sc X y pb). }
  split; now apply G.
Qed.
Theorem C76_binary_report : forall u sc o Xa ya Xe ye s s' sc' o',
  (forall op z y l, u_prebin u op z y = Ok l -> increasing l) ->
  fit_mon u sc o Xa (YBin ya) Xe (YBin ye) s = (s', Ok tt) -> let w := mkMW u sc' o' s' in
  exists psi col total tests ta te ma ga me ge,
    answer u w QReport = Ok (AReport psi tests (TgBin ta te) (PBin (ma, ga) (me, ge))) /\
    answer u w QPsi = Ok (APsi (fst psi) (snd psi) col total) /\ answer u w QTests = Ok (ATests tests) /\
    target_of ya ta /\ target_of ye te /\ performance_of sc Xa ya ma ga /\ performance_of sc Xe ye me ge.
Proof.
  intros u sc o Xa ya Xe ye s s' sc' o' Hinc Hfit w. destruct (fit_binary_ok u sc o Xa ya Xe ye s s' Hfit) as (za & ze & splits & t & p & v & E1 & E2 & E3 & La & Le & Et & Ep & _ & ->).
  specialize (Hinc _ _ _ _ E3). destruct (perf_sides sc Xa ya Xe ye p Ep) as (ma & ga & me & ge & -> & Pa & Pe).
  assert (T : forall y z, length z = length y -> target_of y (target_analysis splits (combine y z))).
  { intros y z L. rewrite (proj2 (proj2 (proj2 (C43_system_counts_everything splits (combine y z) Hinc)))). unfold target_of. cbv zeta.
    assert (K : length (combine y z) = length y) by (rewrite combine_length; lia).
    assert (K1 : length (filter (fun s : ssample => negb (fst s)) (combine y z)) = length (filter negb y)).
    { clear - L. revert z L. induction y as [|b y IH]; intros [|x z] L; try discriminate; [reflexivity|]. cbn [combine filter fst]. injection L as L. destruct b; cbn [negb length]; rewrite IH by exact L; reflexivity. }
    assert (K2 : (length (filter (fun s : ssample => negb (fst s)) (combine y z)) + length (filter (fun s : ssample => fst s) (combine y z)))%nat = length y).
    { rewrite <- K. clear. induction (combine y z) as [|[b x] l IH]; [reflexivity|]. cbn [filter fst]. destruct b; cbn [negb length]; lia. }
    unfold ssample in *. rewrite <- K1. f_equal; [f_equal; [f_equal|]|]; [f_equal; exact K|lia|f_equal; f_equal; f_equal; exact K]. }
  do 10 eexists. split; [reflexivity|]. split; [reflexivity|]. split; [reflexivity|]. split; [now apply T|]. split; [now apply T|]. split; assumption.
Qed.
Print Assumptions C76_binary_report.

(** ** A concrete case, and a failed refit *)
Definition ex_out : outside := mkOut nat unit (fun _ => [1; 2]) (fun _ => true) (fun _ _ _ => Ok [5]) (fun _ _ => Ok []).
Definition ex_scores (k : nat) : list Z := match k with 0%nat => [1; 2; 7; 8] | 1%nat => [1; 3; 6; 9] | _ => [1; 2; 3; 4] end.
Definition ex_sc : scard nat :=
  mkSC true (fun k => Ok (ex_scores k)) (fun k => Ok (map (fun z => z <=? 5) (ex_scores k))) (fun k => Ok (ex_scores k)) (fun _ => Ok [])
    [2; 1] (fun nm k => Ok (if nm =? 1 then [0; 1; 1; 2] else [0; 0; 1; 1])).
Definition ex_y : target := YBin [true; false; true; false].
Definition ex_fit1 : mop ex_out := Fit (u := ex_out) 0%nat ex_y 1%nat ex_y.
Definition ex_fit2 : mop ex_out := Fit (u := ex_out) 2%nat ex_y 1%nat ex_y.
Example C76_hyps_met :
  (forall op z y l, u_prebin ex_out op z y = Ok l -> increasing l) /\ NoDup (sc_support ex_sc) /\
  (exists s', fit_mon ex_out ex_sc tt 0%nat ex_y 1%nat ex_y fresh_mon = (s', Ok tt)) /\
  fitted_by (new_mon ex_out ex_sc tt) [ex_fit1] /\ ~ fitted_by (new_mon ex_out ex_sc tt) [ex_fit2].
Proof.
  split; [intros op z y l [= <-]; repeat constructor|]. split; [repeat constructor; cbn; intuition lia|].
  assert (H : snd (fit_mon ex_out ex_sc tt 0%nat ex_y 1%nat ex_y fresh_mon) = Ok tt) by reflexivity.
  split; [exists (fst (fit_mon ex_out ex_sc tt 0%nat ex_y 1%nat ex_y fresh_mon)); rewrite <- H; destruct (fit_mon ex_out ex_sc tt 0%nat ex_y 1%nat ex_y fresh_mon); reflexivity|].
  split; [exists [], 0%nat, ex_y, 1%nat, ex_y, []; split; [reflexivity|exact H]|].
  intros F. apply (run_flag ex_out [ex_fit2] (new_mon ex_out ex_sc tt) eq_refl) in F. discriminate.
Qed.
(** A fit that fails half-way (the new population leaves the score bin above 5) leaves an object that is fitted and whose psi_table
    describes the new data while tests_table and the variable tables describe the old data. *)
Theorem C76_failed_refit_mixes_refuted : exists u sc o op1 op2 rows rows2 t v,
  rows <> rows2 /\ fitted_by (new_mon u sc o) [op1] /\
  (let w := mrun u (new_mon u sc o) [op1] in (exists sp c x, answer u w QPsi = Ok (APsi sp rows c x)) /\ answer u w QTests = Ok (ATests t) /\ answer u w (QVars None (Some true)) = Ok v) /\
  (let w := mrun u (new_mon u sc o) [op1; op2] in (exists sp c x, answer u w QPsi = Ok (APsi sp rows2 c x)) /\ answer u w QTests = Ok (ATests t) /\ answer u w (QVars None (Some true)) = Ok v).
Proof.
  exists ex_out, ex_sc, tt, ex_fit1, ex_fit2, [(2, 2); (2, 2)], [(4, 2); (0, 2)]. do 2 eexists. split; [discriminate|].
  split; [apply C76_hyps_met|]. split; (split; [do 3 eexists; reflexivity|]; split; reflexivity).
Qed.
Print Assumptions C76_failed_refit_mixes_refuted.
