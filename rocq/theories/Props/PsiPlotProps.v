(** C91: psi_plot of ScorecardMonitoring. *)
From Coq Require Import List ZArith QArith Bool Arith Lia Lqa.
From Verif Require Import Model.Arr Model.Core Model.Metrics Model.BSketch Model.OptSketch Model.SketchLife Model.Process Model.Classif Model.Monitor Model.MonLife Model.Progress Model.PsiPlot
  Spec.CoreSpec Spec.SketchLifeSpec Spec.MonitorSpec Spec.MonLifeSpec Spec.StreamPlotsSpec Proofs.ArrP Proofs.CoreP Proofs.MonitorP Proofs.MonLifeP Proofs.MonLifeQ Proofs.PsiPlotP
  Props.MonitorProps Props.MonLifeProps Props.SketchLifeProps Props.StreamPlotsProps.
Import ListNotations.
Open Scope nat_scope.

(** psi_plot raises NotFittedError until a fit has succeeded; afterwards nothing but ValueError, or TypeError when savefig is not a string. *)
Theorem C91_psi_errors : forall u sc o ops sv,
  let w := prun u (new_pmon u sc o) ops in
  (~ fitted_by (new_mon u sc o) ops -> psi_plot u w sv = Err NotFitted) /\
  (fitted_by (new_mon u sc o) ops -> (exists f, psi_plot u w sv = Ok f) \/ psi_plot u w sv = Err ValueError \/ (psi_plot u w sv = Err TypeError /\ sv = Some false)).
Proof.
  intros u sc o ops sv w. pose proof (run_flag u ops (new_mon u sc o) eq_refl) as HF.
  assert (E : mw_s u (pw_w u w) = mw_s u (mrun u (new_mon u sc o) ops)) by (unfold w; now rewrite prun_world). split.
  - intros N. unfold psi_plot. rewrite E. destruct (ms_fitted _) eqn:X; [exfalso; apply N; now apply HF|reflexivity].
  - intros H. apply HF in H. rewrite <- E in H. destruct (metrics_kept u ops (new_pmon u sc o) ltac:(discriminate) H) as [[S1 S2] S3]. fold w in S1, S2, S3.
    unfold psi_plot. rewrite H. cbn [negb]. destruct (ms_counts _) as [[na ne]|]; [|congruence]. destruct (ms_dtype _); [|congruence]. destruct (pw_metrics u w) as [[ma me]|]; [|congruence].
    unfold bar_width. destruct (length na - 1); cbn [rbind]; [auto|]. destruct (negb _); [auto|]. destruct (_ || _); [auto|]. destruct sv as [[|]|]; [left; eexists; reflexivity|auto|left; eexists; reflexivity].
Qed.
Print Assumptions C91_psi_errors.

Lemma filter_le {A} (p : A -> bool) l : length (filter p l) <= length l.
Proof. induction l as [|x l IH]; [reflexivity|]. cbn [filter length]. destruct (p x); cbn [length]; lia. Qed.
Lemma plot_ok u w sv na ne ma me d : mw_s u (pw_w u w) = mw_s u (pw_w u w) -> ms_fitted (mw_s u (pw_w u w)) = true -> ms_counts (mw_s u (pw_w u w)) = Some (na, ne) ->
  ms_dtype (mw_s u (pw_w u w)) = Some d -> pw_metrics u w = Some (ma, me) -> length ne = length na -> length ma = length na -> length me = length na -> sv <> Some false ->
  (length na <= 1 -> psi_plot u w sv = Err ValueError) /\
  (1 < length na -> psi_plot u w sv = Ok (mkPsi (1 # 3) (combine (map (fun x => (x - (1 # 3))%Q) (positions (length na))) (heights na)) (combine (positions (length na)) (heights ne))
                           (combine (positions (length na)) ma) (combine (positions (length na)) me) d)).
Proof.
  intros _ H1 H2 H3 H4 L1 L2 L3 Hs. unfold psi_plot. rewrite H1, H2, H3, H4, L1, L2, L3, !Nat.eqb_refl. cbn [negb orb]. unfold bar_width.
  destruct (length na - 1) as [|k] eqn:E; split; intros H; try lia; cbn [rbind]; [reflexivity|]. destruct sv as [[|]|]; try reflexivity. congruence.
Qed.
Lemma nth_bars na (xs : list Q) i x c : (0 < zsum na)%Z -> nth_error xs i = Some x -> nth_error na i = Some c -> nth_error (combine xs (heights na)) i = Some (x, Some (inject_Z c / inject_Z (zsum na) * 100)%Q).
Proof. intros P H1 H2. now rewrite nth_error_combine, H1, (heights_nth _ _ _ P H2). Qed.
Lemma shifted_nth n i : i < n -> nth_error (map (fun x => (x - (1 # 3))%Q) (positions n)) i = Some (at_ i - (1 # 3))%Q.
Proof. intros H. now rewrite nth_error_map, (positions_nth n i H). Qed.

(** The figure after a fit on a binary target that succeeded, whatever the object was before and whatever is done to it later short of a
    fit: with one score bin no figure (ValueError); otherwise one pair of bars per score bin, a third of a bin wide and side by side, with the
    percentages of the actual and of the expected records that fall in that bin (100 in all), and lines through their event rates. *)
Theorem C91_psi_binary : forall u w Xa ya Xe ye ops sv,
  (forall op z y l, u_prebin u op z y = Ok l -> increasing l) ->
  snd (fit_mon u (mw_sc u (pw_w u w)) (mw_o u (pw_w u w)) Xa (YBin ya) Xe (YBin ye) (mw_s u (pw_w u w))) = Ok tt -> Forall quiet ops -> sv <> Some false ->
  exists za ze splits,
    sc_score (mw_sc u (pw_w u w)) Xa = Ok za /\ sc_score (mw_sc u (pw_w u w)) Xe = Ok ze /\ u_prebin u (mw_o u (pw_w u w)) ze (YBin ye) = Ok splits /\
    let w' := prun u w (Fit Xa (YBin ya) Xe (YBin ye) :: ops) in
    (splits = [] -> psi_plot u w' sv = Err ValueError) /\
    (splits <> [] -> exists f, psi_plot u w' sv = Ok f /\ (pg_width f == 1 / 3)%Q /\ pg_label f = DBinary /\
       length (pg_actual f) = S (length splits) /\ length (pg_expected f) = S (length splits) /\ length (pg_line_a f) = S (length splits) /\ length (pg_line_e f) = S (length splits) /\
       (sum_of (pg_actual f) == 100)%Q /\ (sum_of (pg_expected f) == 100)%Q /\
       forall i, i < S (length splits) -> exists na ne ea ee,
         n_where (in_score_bin splits i) (combine ya za) na /\ n_where (in_score_bin splits i) (combine ye ze) ne /\
         n_where (event_in_bin splits i) (combine ya za) ea /\ n_where (event_in_bin splits i) (combine ye ze) ee /\
         nth_error (pg_actual f) i = Some (at_ i - (1 # 3), Some (inject_Z na / inject_Z (Z.of_nat (length ya)) * 100))%Q /\
         nth_error (pg_expected f) i = Some (at_ i, Some (inject_Z ne / inject_Z (Z.of_nat (length ye)) * 100))%Q /\
         nth_error (pg_line_a f) i = Some (at_ i, Some (inject_Z ea / inject_Z na))%Q /\
         nth_error (pg_line_e f) i = Some (at_ i, Some (inject_Z ee / inject_Z ne))%Q).
Proof.
  intros u w Xa ya Xe ye ops sv Hinc Hf Hq Hs. set (sc := mw_sc u (pw_w u w)) in *. set (o := mw_o u (pw_w u w)) in *. set (s := mw_s u (pw_w u w)) in *.
  destruct (fit_mon u sc o Xa (YBin ya) Xe (YBin ye) s) as [s' r] eqn:F. cbn [snd] in Hf. subst r.
  destruct (fit_binary_ok u sc o Xa ya Xe ye s s' F) as (za & ze & splits & t & p & v & E1 & E2 & E3 & La & Le & Et & _ & _ & Es).
  specialize (Hinc _ _ _ _ E3). exists za, ze, splits. do 3 (split; [assumption|]). cbv zeta. cbn [prun fold_left]. fold (prun u (pstep u w (Fit Xa (YBin ya) Xe (YBin ye))) ops). rewrite quiet_plot by exact Hq.
  set (a := combine ya za) in *. set (e := combine ye ze) in *. set (w1 := pstep u w (Fit Xa (YBin ya) Xe (YBin ye))).
  assert (W : mw_s u (pw_w u w1) = s') by (unfold w1; cbn [pstep pw_w mstep mw_s]; fold sc o s; now rewrite F).
  assert (M : pw_metrics u w1 = Some (rates splits a, rates splits e)).
  { unfold w1. cbn [pstep pw_metrics]. fold sc o s. unfold new_metrics. unfold fit_mon in F. destruct (u_check u o); [|discriminate]. destruct (sc_fitted sc); [|discriminate]. cbn [negb orb type_of dtype_eqb] in *.
    destruct (names_eqb _ _); [|discriminate]. cbn [negb]. rewrite E1, E2, E3, La, Le, !Nat.eqb_refl. reflexivity. }
  assert (LS : forall d, length (sys_records splits d) = S (length splits)) by (intros; unfold sys_records; now rewrite map_length, seq_length).
  assert (LR : forall d, length (rates splits d) = S (length splits)) by (intros; unfold rates, bins_of; now rewrite map_length, seq_length).
  destruct (plot_ok u w1 sv (sys_records splits a) (sys_records splits e) (rates splits a) (rates splits e) DBinary eq_refl) as [P1 P2];
    try (rewrite ?W, ?Es, ?LS, ?LR; reflexivity); [exact M|exact Hs|]. rewrite LS in P1, P2.
  split; [intros Hn; apply P1; rewrite Hn; cbn; lia|]. intros Hn. assert (Hl : 1 < S (length splits)) by (destruct splits; [congruence|cbn; lia]).
  assert (Ca : length a = length ya) by (unfold a; rewrite combine_length; lia). assert (Ce : length e = length ye) by (unfold e; rewrite combine_length; lia).
  destruct (tests_ok splits Hinc a e (bins_of splits) t Et) as [Lt Nt].
  assert (Pop : forall i, i < S (length splits) -> (0 < sys_nonevent splits a i + sys_event splits a i)%Z /\ (0 < sys_nonevent splits e i + sys_event splits e i)%Z).
  { intros i Hi. destruct (Nt i i (bins_nth splits i Hi)) as (P & _). apply (populated_counts splits Hinc) in P as (Q1 & Q2 & _). auto. }
  pose proof (proj1 (C43_system_counts_everything splits a Hinc)) as Za. pose proof (proj1 (C43_system_counts_everything splits e Hinc)) as Ze. change (@length ssample) with (@length (bool * Z)) in Za, Ze. rewrite Ca in Za. rewrite Ce in Ze.
  assert (Nr : forall d i, i < S (length splits) -> nth_error (sys_records splits d) i = Some (sys_nonevent splits d i + sys_event splits d i)%Z).
  { intros d i Hi. unfold sys_records. rewrite nth_error_map. fold (bins_of splits). now rewrite (bins_nth splits i Hi). }
  assert (Wh : forall d i, i < S (length splits) -> (sys_nonevent splits d i + sys_event splits d i <= Z.of_nat (length d))%Z).
  { intros d i Hi. rewrite records_split. unfold count_if. apply inj_le. apply filter_le. }
  assert (Na : (0 < zsum (sys_records splits a))%Z).
  { rewrite Za. apply Z.lt_le_trans with (1 := proj1 (Pop 0 (Nat.lt_0_succ _))). rewrite <- Ca. exact (Wh a 0 (Nat.lt_0_succ _)). }
  assert (Ne : (0 < zsum (sys_records splits e))%Z).
  { rewrite Ze. apply Z.lt_le_trans with (1 := proj2 (Pop 0 (Nat.lt_0_succ _))). rewrite <- Ce. exact (Wh e 0 (Nat.lt_0_succ _)). }
  eexists. split; [exact (P2 Hl)|]. cbn [pg_width pg_label pg_actual pg_expected pg_line_a pg_line_e]. split; [reflexivity|]. split; [reflexivity|].
  split; [rewrite combine_length, map_length, positions_len, heights_len, LS; lia|]. split; [rewrite combine_length, positions_len, heights_len, LS; lia|].
  split; [rewrite combine_length, positions_len, LR; lia|]. split; [rewrite combine_length, positions_len, LR; lia|].
  split; [apply heights_sum; [exact Na|now rewrite map_length, positions_len, LS]|]. split; [apply heights_sum; [exact Ne|now rewrite positions_len, LS]|].
  intros i Hi. destruct (Pop i Hi) as [Pa Pe].
  exists (sys_nonevent splits a i + sys_event splits a i)%Z, (sys_nonevent splits e i + sys_event splits e i)%Z, (sys_event splits a i), (sys_event splits e i).
  split; [now apply record_where|]. split; [now apply record_where|]. split; [now apply event_where|]. split; [now apply event_where|].
  split; [rewrite <- Za; apply nth_bars; [exact Na|now apply shifted_nth|now apply Nr]|]. split; [rewrite <- Ze; apply nth_bars; [exact Ne|now apply positions_nth|now apply Nr]|].
  split; rewrite nth_error_combine, (positions_nth _ _ Hi); unfold rates; rewrite nth_error_map, (bins_nth splits i Hi); cbn [option_map]; now rewrite ratio_pos.
Qed.
Print Assumptions C91_psi_binary.

Lemma tagged (q : Z -> bool) z : count_if (fun s : ssample => q (snd s)) (map (pair true) z) = count_if q z.
Proof. unfold count_if. induction z as [|x z IH]; [reflexivity|]. cbn [map filter snd]. destruct (q x); cbn [length]; lia. Qed.
Lemma cont_as_sys splits z : cont_counts splits z = sys_records splits (map (pair true) z).
Proof.
  unfold cont_counts, sys_records, bins_of. apply map_ext. intros i. rewrite records_split. unfold cont_records. symmetry. apply (tagged (fun s => Nat.eqb (digitize_r splits s) i)).
Qed.
(** The same for a continuous target: score bins may be empty (a bar of height 0, no point on the line); the lines go through the means. *)
Theorem C91_psi_continuous : forall u w Xa ya Xe ye ops sv,
  (forall op z y l, u_prebin u op z y = Ok l -> increasing l) -> ya <> [] -> ye <> [] ->
  snd (fit_mon u (mw_sc u (pw_w u w)) (mw_o u (pw_w u w)) Xa (YCont ya) Xe (YCont ye) (mw_s u (pw_w u w))) = Ok tt -> Forall quiet ops -> sv <> Some false ->
  exists za ze splits,
    sc_score (mw_sc u (pw_w u w)) Xa = Ok za /\ sc_score (mw_sc u (pw_w u w)) Xe = Ok ze /\ u_prebin u (mw_o u (pw_w u w)) ze (YCont ye) = Ok splits /\
    let w' := prun u w (Fit Xa (YCont ya) Xe (YCont ye) :: ops) in
    (splits = [] -> psi_plot u w' sv = Err ValueError) /\
    (splits <> [] -> exists f, psi_plot u w' sv = Ok f /\ (pg_width f == 1 / 3)%Q /\ pg_label f = DContinuous /\
       length (pg_actual f) = S (length splits) /\ length (pg_expected f) = S (length splits) /\ length (pg_line_a f) = S (length splits) /\ length (pg_line_e f) = S (length splits) /\
       (sum_of (pg_actual f) == 100)%Q /\ (sum_of (pg_expected f) == 100)%Q /\
       forall i, i < S (length splits) -> exists na ne ma me,
         n_where (in_right_bin_i splits i) za na /\ n_where (in_right_bin_i splits i) ze ne /\
         mean_in_bin splits (combine ya za) i ma /\ mean_in_bin splits (combine ye ze) i me /\
         nth_error (pg_actual f) i = Some (at_ i - (1 # 3), Some (inject_Z na / inject_Z (Z.of_nat (length ya)) * 100))%Q /\
         nth_error (pg_expected f) i = Some (at_ i, Some (inject_Z ne / inject_Z (Z.of_nat (length ye)) * 100))%Q /\
         nth_error (pg_line_a f) i = Some (at_ i, ma) /\ nth_error (pg_line_e f) i = Some (at_ i, me)).
Proof.
  intros u w Xa ya Xe ye ops sv Hinc Ya Ye Hf Hq Hs. set (sc := mw_sc u (pw_w u w)) in *. set (o := mw_o u (pw_w u w)) in *. set (s := mw_s u (pw_w u w)) in *.
  destruct (fit_mon u sc o Xa (YCont ya) Xe (YCont ye) s) as [s' r] eqn:F. cbn [snd] in Hf. subst r.
  destruct (fit_cont_ok u sc o Xa ya Xe ye s s' F) as (za & ze & splits & p & v & E1 & E2 & E3 & La & Le & _ & _ & Es).
  specialize (Hinc _ _ _ _ E3). exists za, ze, splits. do 3 (split; [assumption|]). cbv zeta. cbn [prun fold_left]. fold (prun u (pstep u w (Fit Xa (YCont ya) Xe (YCont ye))) ops). rewrite quiet_plot by exact Hq.
  set (w1 := pstep u w (Fit Xa (YCont ya) Xe (YCont ye))).
  assert (W : mw_s u (pw_w u w1) = s') by (unfold w1; cbn [pstep pw_w mstep mw_s]; fold sc o s; now rewrite F).
  assert (M : pw_metrics u w1 = Some (means splits ya za, means splits ye ze)).
  { unfold w1. cbn [pstep pw_metrics]. fold sc o s. unfold new_metrics. unfold fit_mon in F. destruct (u_check u o); [|discriminate]. destruct (sc_fitted sc); [|discriminate]. cbn [negb orb type_of dtype_eqb] in *.
    destruct (names_eqb _ _); [|discriminate]. cbn [negb]. rewrite E1, E2, E3, La, Le, !Nat.eqb_refl. reflexivity. }
  assert (LS : forall z, length (cont_counts splits z) = S (length splits)) by (intros; unfold cont_counts, bins_of; now rewrite map_length, seq_length).
  assert (LR : forall y z, length (means splits y z) = S (length splits)) by (intros; unfold means, bins_of; now rewrite map_length, seq_length).
  destruct (plot_ok u w1 sv (cont_counts splits za) (cont_counts splits ze) (means splits ya za) (means splits ye ze) DContinuous eq_refl) as [P1 P2];
    try (rewrite ?W, ?Es, ?LS, ?LR; reflexivity); [exact M|exact Hs|]. rewrite LS in P1, P2.
  split; [intros Hn; apply P1; rewrite Hn; cbn; lia|]. intros Hn. assert (Hl : 1 < S (length splits)) by (destruct splits; [congruence|cbn; lia]).
  assert (Tot : forall z, zsum (cont_counts splits z) = Z.of_nat (length z)).
  { intros z. rewrite cont_as_sys. rewrite (proj1 (C43_system_counts_everything splits (map (pair true) z) Hinc)). f_equal. apply map_length. }
  pose proof (Tot za) as Za. pose proof (Tot ze) as Ze. rewrite La in Za. rewrite Le in Ze.
  assert (Na : (0 < zsum (cont_counts splits za))%Z) by (rewrite Za; destruct ya; [congruence|reflexivity]).
  assert (Ne : (0 < zsum (cont_counts splits ze))%Z) by (rewrite Ze; destruct ye; [congruence|reflexivity]).
  assert (Nr : forall z i, i < S (length splits) -> nth_error (cont_counts splits z) i = Some (cont_records splits z i)) by (intros z i Hi; unfold cont_counts; now rewrite nth_error_map, (bins_nth splits i Hi)).
  eexists. split; [exact (P2 Hl)|]. cbn [pg_width pg_label pg_actual pg_expected pg_line_a pg_line_e]. split; [reflexivity|]. split; [reflexivity|].
  split; [rewrite combine_length, map_length, positions_len, heights_len, LS; lia|]. split; [rewrite combine_length, positions_len, heights_len, LS; lia|].
  split; [rewrite combine_length, positions_len, LR; lia|]. split; [rewrite combine_length, positions_len, LR; lia|].
  split; [apply heights_sum; [exact Na|now rewrite map_length, positions_len, LS]|]. split; [apply heights_sum; [exact Ne|now rewrite positions_len, LS]|].
  intros i Hi. exists (cont_records splits za i), (cont_records splits ze i), (mean_at splits ya za i), (mean_at splits ye ze i).
  assert (Wr : forall z, n_where (in_right_bin_i splits i) z (cont_records splits z i)).
  { intros z. unfold cont_records, count_if. eexists. split; [|reflexivity]. intros x. cbv beta. rewrite Nat.eqb_eq. now apply digitize_r_in_bin. }
  assert (Mean : forall y z, length z = length y -> mean_in_bin splits (combine y z) i (mean_at splits y z i)).
  { intros y z L. exists (fun x => Nat.eqb (digitize_r splits (snd x)) i). split; [intros x; rewrite Nat.eqb_eq; now apply digitize_r_in_bin|].
    unfold mean_at. rewrite (select_filter (fun x => Nat.eqb (digitize_r splits x) i) z y L). destruct (filter _ (combine y z)) as [|x l]; [reflexivity|]. cbn [map]. rewrite <- (map_length fst (x :: l)). reflexivity. }
  split; [apply Wr|]. split; [apply Wr|]. split; [now apply Mean|]. split; [now apply Mean|].
  split; [rewrite <- Za; apply nth_bars; [exact Na|now apply shifted_nth|now apply Nr]|]. split; [rewrite <- Ze; apply nth_bars; [exact Ne|now apply positions_nth|now apply Nr]|].
  split; rewrite nth_error_combine, (positions_nth _ _ Hi); unfold means; rewrite nth_error_map, (bins_nth splits i Hi); reflexivity.
Qed.
Print Assumptions C91_psi_continuous.

(** A monitoring that is fitted and answers every read cannot be drawn when there is one score bin: np.min of an empty array. *)
Definition one_out : outside := mkOut nat unit (fun _ => [1%Z; 2%Z]) (fun _ => true) (fun _ _ _ => Ok []) (fun _ _ => Ok []).
Definition one_fit : mop one_out := Fit (u := one_out) 0 ex_y 1 ex_y.
Theorem C91_psi_single_bin_refuted : exists u sc o ops a b,
  fitted_by (new_mon u sc o) ops /\ answer u (mrun u (new_mon u sc o) ops) QPsi = Ok a /\ answer u (mrun u (new_mon u sc o) ops) QTests = Ok b /\
  forall sv, psi_plot u (prun u (new_pmon u sc o) ops) sv = Err ValueError.
Proof.
  exists one_out, ex_sc, tt, [one_fit]. do 2 eexists.
  split; [exists [], 0, ex_y, 1, ex_y, []; split; reflexivity|]. split; [reflexivity|]. split; [reflexivity|]. intros sv. reflexivity.
Qed.
Print Assumptions C91_psi_single_bin_refuted.

(** After a fit that fails because the new population leaves a score bin, the figure keeps the bars of the old populations (50% of the actual
    records in each of two bins, although all the new ones are in the first) and has the event rates of the new ones. *)
Theorem C91_psi_failed_refit_refuted : exists u sc o op1 op2 f1 f2,
  psi_plot u (prun u (new_pmon u sc o) [op1]) None = Ok f1 /\ psi_plot u (prun u (new_pmon u sc o) [op1; op2]) None = Ok f2 /\
  (exists Xa ya Xe ye, op2 = Fit Xa ya Xe ye /\ exists za, sc_score sc Xa = Ok za /\ exists sp, u_prebin u o [1; 3; 6; 9]%Z ye = Ok sp /\ forall z, In z za -> in_right_bin_i sp 0 z) /\
  pg_actual f2 = pg_actual f1 /\ pg_expected f2 = pg_expected f1 /\
  map snd (pg_actual f2) = [Some (2 / 4 * 100); Some (2 / 4 * 100)]%Q /\
  map snd (pg_line_a f1) = [Some (1 / 2); Some (1 / 2)]%Q /\ map snd (pg_line_a f2) = [Some (2 / 4)%Q; None].
Proof.
  exists ex_out, ex_sc, tt, ex_fit1, ex_fit2. do 2 eexists. split; [reflexivity|]. split; [reflexivity|].
  split. { exists 2, ex_y, 1, ex_y. split; [reflexivity|]. eexists. split; [reflexivity|]. eexists. split; [reflexivity|]. intros z Hz. cbn in Hz. unfold in_right_bin_i. cbn. split; [exact I|]. intuition lia. }
  repeat split; reflexivity.
Qed.
Print Assumptions C91_psi_failed_refit_refuted.

(** The title counts the calls of add of the object itself, the records those of merged sketches too. *)
Theorem C91_progress_adds_refuted : exists h f, clean_merges h /\ opt_ok keep /\
  plot_progress (sketch_object (1#100) IV keep 4 h) = Ok f /\ pr_title f = (1, 12%Z) /\ length (pr_div f) = 2.
Proof.
  exists story. destruct C81_hyps_met as (Ho & C & _). pose proof (C91_progress (1#100) IV keep 4 story Ho C) as [_ P].
  assert (G : good_solves (1#100) IV keep 4 story <> []) by (intros E; apply (f_equal (@length _)) in E; vm_compute in E; discriminate).
  destruct P as (f & dv & E & Ld & L1 & _ & _ & _ & _ & T & _).
  { intros X. apply G. apply (f_equal (@rev _)) in X. now rewrite rev_involutive in X. }
  exists f. split; [exact C|]. split; [exact Ho|]. split; [exact E|]. rewrite T, L1. split; [vm_compute; reflexivity|]. rewrite rev_length. apply C81_hyps_met.
Qed.
Print Assumptions C91_progress_adds_refuted.

Definition cont_out : outside := mkOut nat unit (fun _ => [1%Z; 2%Z]) (fun _ => true) (fun _ _ _ => Ok [2; 5; 20]%Z) (fun _ _ => Ok []).
Definition cont_y : target := YCont [3; 5; 7; 9]%Z.
Definition cont_sc : scard nat := mkSC true (fun k => Ok (ex_scores k)) (fun _ => Ok []) (fun _ => Ok []) (fun _ => Ok []) [1%Z; 2%Z] (fun _ k => Ok (ex_scores k)).
Example C91_hyps_met :
  (opt_ok keep /\ clean_merges story /\ length (good_solves (1#100) IV keep 4 story) = 2) /\
  (let w := new_pmon ex_out ex_sc tt in snd (fit_mon ex_out (mw_sc _ (pw_w _ w)) (mw_o _ (pw_w _ w)) 0 ex_y 1 ex_y (mw_s _ (pw_w _ w))) = Ok tt) /\
  (let w := new_pmon cont_out cont_sc tt in snd (fit_mon cont_out (mw_sc _ (pw_w _ w)) (mw_o _ (pw_w _ w)) 0 cont_y 1 cont_y (mw_s _ (pw_w _ w))) = Ok tt) /\
  (exists f, psi_plot cont_out (prun cont_out (new_pmon cont_out cont_sc tt) [Fit (u := cont_out) 0 cont_y 1 cont_y]) (Some true) = Ok f /\
     map snd (pg_line_a f) = [Some (8 / 2); None; Some (16 / 2); None]%Q).
Proof.
  destruct C81_hyps_met as (Ho & C & _ & _ & _ & _ & _ & L). split; [auto|]. split; [reflexivity|]. split; [reflexivity|]. eexists. split; reflexivity.
Qed.
