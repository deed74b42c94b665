(** Property theorems for the optimisation step (constraint model of cp.py and model_data.py).
    The CP-SAT solver is trusted to return an assignment satisfying the posted constraints
    ([solved]); everything about what those constraints mean for the binning table is proved. *)
From Coq Require Import List ZArith Bool Arith Lia Sorting QArith.
From Verif Require Import Model.Arr Model.Core Model.CP Spec.CoreSpec Spec.CPSpec Spec.CPFitSpec
  Proofs.ArrP Proofs.CoreP Proofs.FitP Proofs.CoreFinal Proofs.CPP Proofs.CPC Proofs.CPTable Proofs.CPFinal.
Import ListNotations.
Open Scope Z_scope.

(** C07: assignments satisfying the structural constraints are exactly the partitions of the prebins
    into consecutive groups. *)
Theorem C07_assignments_are_partitions : forall n X, (0 < n)%nat ->
  (bool_vars n X /\ unique_assignment n X /\ continuity n X) <->
  exists gs, partition n gs /\ describes n gs X.
Proof.
  intros n X Hn. split; [apply structural_partition; exact Hn|].
  intros (gs & Hp & Hr). exact (represents_structural n gs X Hp Hr).
Qed.
Print Assumptions C07_assignments_are_partitions.
(** ... in such a partition every prebin is in exactly one group, and every partition is reachable. *)
Theorem C07_every_prebin_once : forall n gs i, partition n gs -> (i < n)%nat ->
  exists g, In g gs /\ (fst g <= i <= snd g)%nat /\ forall g', In g' gs -> (fst g' <= i <= snd g')%nat -> g' = g.
Proof.
  intros n gs i Hp Hi. destruct (chain_cover _ _ _ i Hp ltac:(lia)) as (s & e & Hin & Hse).
  exists (s, e). split; [exact Hin|]. split; [exact Hse|]. intros [s' e'] Hin' Hse'.
  destruct (chain_disj _ _ _ _ _ _ _ i Hp Hin Hin' Hse Hse') as [-> ->]. reflexivity.
Qed.
Print Assumptions C07_every_prebin_once.
Theorem C07_every_partition_representable : forall n gs, partition n gs ->
  exists X, bool_vars n X /\ unique_assignment n X /\ continuity n X /\ describes n gs X.
Proof.
  intros n gs Hp. exists (mat_of gs). pose proof (mat_of_represents n gs) as Hr.
  destruct (represents_structural n gs _ Hp Hr) as (A & B & C). auto.
Qed.
Print Assumptions C07_every_partition_representable.
(** ... and the solution vector read off the solver always has the length and final True that the
    post-processing (C03, C16) relies on, feasible or not. *)
Theorem C07_solution_vector_shape : forall n o, (0 < n)%nat ->
  (forall X, o = Solved X -> bool_vars n X /\ unique_assignment n X /\ continuity n X) ->
  length (solution_vector n o) = n /\ last (solution_vector n o) false = true.
Proof. exact solve_shape. Qed.
Print Assumptions C07_solution_vector_shape.
Example C07_hyps_met : partition 4 [(0, 1); (2, 2); (3, 3)]%nat /\
  solution_vector 4 (Solved (mat_of [(0, 1); (2, 2); (3, 3)]%nat)) = [false; true; true; true].
Proof. split; [repeat constructor|reflexivity]. Qed.

(** C08: the objective is the total divergence of the bins of the resulting table ... *)
Theorem C08_objective_is_table_divergence : forall wu d solver sp fixed user splits0 xs ys sw f M g X phi,
  fit_numerical wu d solver sp fixed user splits0 xs ys sw = Some (Ok f) -> solved f solver M g X ->
  objective (length (pb_nev (f_prebins f))) (div_mat phi (pb_nev (f_prebins f)) (pb_ev (f_prebins f))) X
  = zsum (map phi (clean_rows f)).
Proof.
  intros * Hf (Hn & Hs & HF). destruct (fit_groups _ _ _ _ _ _ _ _ _ _ _ _ Hf Hn Hs (feasible_structural _ _ _ _ _ _ _ HF)) as [gs [Hp Hr Hl Hsp Hnb Hrows Hk]].
  rewrite (objective_groups (length (pb_nev (f_prebins f))) gs X ltac:(lia) Hp Hr), Hrows. unfold rows_of. rewrite map_map. apply zsum_map_ext.
  intros [s e] Hin. pose proof (chain_in _ _ _ _ _ Hp Hin). unfold at_group, div_mat. cbn [fst snd].
  rewrite !cum_mat_gsum by lia. reflexivity.
Qed.
Print Assumptions C08_objective_is_table_divergence.
(** ... so when the solver's assignment is optimal, no partition that meets the user's request has a
    larger total (for requests without the pre-processing cuts of C15). *)
Theorem C08_optimal_among_requests : forall wu d solver sp fixed user splits0 xs ys sw f M g X phi pol test md,
  0 < wu -> (forall w, In w sw -> 0 <= w) -> d = IV \/ d = JS -> 0 < M ->
  fit_numerical wu d solver sp fixed user splits0 xs ys sw = Some (Ok f) -> solved f solver M g X ->
  let ne := pb_nev (f_prebins f) in let ev := pb_ev (f_prebins f) in
  (forall X', feasible (length ne) (rate_mat M ne ev) M (at0 ne) (at0 ev) g X' ->
     objective (length ne) (div_mat phi ne ev) X' <= objective (length ne) (div_mat phi ne ev) X) ->
  g_md0 g = false -> g_pviol g = pviol_of pol test ne ev -> g_dviol g = dviol_of md M ne ev ->
  forall gs', partition (length ne) gs' -> spec_ok ne ev gs' M g pol test md ->
  zsum (map phi (rows_of ne ev gs')) <= zsum (map phi (clean_rows f)).
Proof.
  intros * Hw Hsw Hd HM Hf Hsol ne ev Hopt Hmd Epv Edv gs' Hp' Hok.
  pose proof (fit_pos _ _ _ _ _ _ _ _ _ _ _ Hw Hsw Hd Hf) as [Pn Pe]. fold ne ev in Pn, Pe.
  assert (E := C08_objective_is_table_divergence _ _ _ _ _ _ _ _ _ _ _ _ _ _ phi Hf Hsol). fold ne ev in E. rewrite <- E.
  destruct Hsol as (Hn & Hs & HF). destruct (fit_groups _ _ _ _ _ _ _ _ _ _ _ _ Hf Hn Hs (feasible_structural _ _ _ _ _ _ _ HF)) as [gs [Hp Hr Hl Hsp Hnb Hrows Hk]].
  fold ne ev in Hn, Hl. pose proof (mat_of_represents (length ne) gs') as Hr'.
  eapply Z.le_trans; [|apply (Hopt (mat_of gs'))].
  - rewrite (objective_groups (length ne) gs' _ ltac:(lia) Hp' Hr'). unfold rows_of. rewrite map_map. apply Z.eq_le_incl, zsum_map_ext.
    intros [s e] Hin. pose proof (chain_in _ _ _ _ _ Hp' Hin). unfold at_group, div_mat. cbn [fst snd].
    rewrite !cum_mat_gsum by lia. reflexivity.
  - refine (feasible_complete ne ev gs' M g pol test md _ _ HM Hl Hp' Hr' Pn Pe Hmd Epv Edv Hok); lia.
Qed.
Print Assumptions C08_optimal_among_requests.

(** C09: number of bins. *)
Theorem C09_number_of_bins : forall wu d solver sp fixed user splits0 xs ys sw f M g X,
  fit_numerical wu d solver sp fixed user splits0 xs ys sw = Some (Ok f) -> solved f solver M g X ->
  within (g_min_bins g) (g_max_bins g) (Z.of_nat (length (f_splits f) + 1)).
Proof.
  intros * Hf (Hn & Hs & HF). destruct (fit_groups _ _ _ _ _ _ _ _ _ _ _ _ Hf Hn Hs (feasible_structural _ _ _ _ _ _ _ HF)) as [gs [Hp Hr Hl Hsp Hnb Hrows Hk]].
  destruct (sound_sizes _ _ _ _ _ _ (Nat.lt_trans 0 1 _ Nat.lt_0_1 Hn) Hl Hp Hr HF) as [A _].
  replace (length (f_splits f) + 1)%nat with (length gs) by lia. exact A.
Qed.
Print Assumptions C09_number_of_bins.
(** With at most one prebin no optimisation problem is solved: the fit succeeds with a single bin
    whatever min_n_bins is (the model has no parameter for it on this path: binning.py:901-911). *)
Theorem C09_single_prebin_ignores_min_n_bins_refuted : forall solver, exists f,
  fit_numerical 1 IV solver SpNone None None [] [XNum 1; XNum 2] [Y0; Y1] [1; 1] = Some (Ok f) /\
  length (f_splits f) = 0%nat.
Proof. intros solver. eexists. split; reflexivity. Qed.
Print Assumptions C09_single_prebin_ignores_min_n_bins_refuted.

(** C10: sizes of the bins of the table. *)
Theorem C10_bin_sizes : forall wu d solver sp fixed user splits0 xs ys sw f M g X,
  fit_numerical wu d solver sp fixed user splits0 xs ys sw = Some (Ok f) -> solved f solver M g X ->
  length (clean_rows f) = (length (f_splits f) + 1)%nat /\
  Forall (fun r => within (g_min_size g) (g_max_size g) (records r) /\
     within (g_min_ne g) (g_max_ne g) (fst r) /\ within (g_min_e g) (g_max_e g) (snd r)) (clean_rows f).
Proof.
  intros * Hf (Hn & Hs & HF). destruct (fit_groups _ _ _ _ _ _ _ _ _ _ _ _ Hf Hn Hs (feasible_structural _ _ _ _ _ _ _ HF)) as [gs [Hp Hr Hl Hsp Hnb Hrows Hk]].
  destruct (sound_sizes _ _ _ _ _ _ (Nat.lt_trans 0 1 _ Nat.lt_0_1 Hn) Hl Hp Hr HF) as [_ A]. rewrite Hrows. split; [|exact A].
  unfold rows_of. rewrite map_length. lia.
Qed.
Print Assumptions C10_bin_sizes.

(** C11: ascending / descending rates, up to the resolution 1/M of the scaled integers. *)
Theorem C11_monotone_trend : forall wu d solver sp fixed user splits0 xs ys sw f M g X,
  0 < wu -> (forall w, In w sw -> 0 <= w) -> d = IV \/ d = JS -> 0 < M ->
  fit_numerical wu d solver sp fixed user splits0 xs ys sw = Some (Ok f) -> solved f solver M g X ->
  (g_trend g = TAscending -> all_pairs (rate_le_res M) (clean_rows f)) /\
  (g_trend g = TDescending -> all_pairs (rate_ge_res M) (clean_rows f)).
Proof.
  intros * Hw Hsw Hd HM Hf (Hn & Hs & HF). pose proof (fit_pos _ _ _ _ _ _ _ _ _ _ _ Hw Hsw Hd Hf) as [Pn Pe].
  destruct (fit_groups _ _ _ _ _ _ _ _ _ _ _ _ Hf Hn Hs (feasible_structural _ _ _ _ _ _ _ HF)) as [gs [Hp Hr Hl Hsp Hnb Hrows Hk]].
  rewrite Hrows. split; [eapply sound_asc|eapply sound_desc]; eauto; lia.
Qed.
Print Assumptions C11_monotone_trend.
Theorem C11_min_event_rate_diff : forall wu d solver sp fixed user splits0 xs ys sw f M g X k,
  0 < wu -> (forall w, In w sw -> 0 <= w) -> d = IV \/ d = JS -> 0 < M ->
  fit_numerical wu d solver sp fixed user splits0 xs ys sw = Some (Ok f) -> solved f solver M g X ->
  g_dviol g = dviol_of (Some k) M (pb_nev (f_prebins f)) (pb_ev (f_prebins f)) ->
  neighbours (apart_res M k) (clean_rows f).
Proof.
  intros * Hw Hsw Hd HM Hf (Hn & Hs & HF) Ed. pose proof (fit_pos _ _ _ _ _ _ _ _ _ _ _ Hw Hsw Hd Hf) as [Pn Pe].
  destruct (fit_groups _ _ _ _ _ _ _ _ _ _ _ _ Hf Hn Hs (feasible_structural _ _ _ _ _ _ _ HF)) as [gs [Hp Hr Hl Hsp Hnb Hrows Hk]].
  rewrite Hrows. destruct HF as (_ & _ & _ & _ & _ & _ & _ & _ & _ & HV & _). rewrite Ed in HV.
  eapply min_diff_sound; eauto; lia.
Qed.
Print Assumptions C11_min_event_rate_diff.

(** C12: peak and valley (exact search and heuristics with trend change at prebin tc). *)
Theorem C12_peak_valley : forall wu d solver sp fixed user splits0 xs ys sw f M g X,
  0 < wu -> (forall w, In w sw -> 0 <= w) -> d = IV \/ d = JS -> 0 < M ->
  fit_numerical wu d solver sp fixed user splits0 xs ys sw = Some (Ok f) -> solved f solver M g X ->
  let n := length (pb_nev (f_prebins f)) in
  (g_trend g = TPeak \/ (exists tc, (tc <= n)%nat /\ g_trend g = TPeakHeuristic tc) ->
     up_down (rate_le_res M) (clean_rows f)) /\
  (g_trend g = TValley \/ (exists tc, (tc <= n)%nat /\ g_trend g = TValleyHeuristic tc) ->
     up_down (rate_ge_res M) (clean_rows f)).
Proof.
  intros * Hw Hsw Hd HM Hf (Hn & Hs & HF) n. pose proof (fit_pos _ _ _ _ _ _ _ _ _ _ _ Hw Hsw Hd Hf) as [Pn Pe].
  destruct (fit_groups _ _ _ _ _ _ _ _ _ _ _ _ Hf Hn Hs (feasible_structural _ _ _ _ _ _ _ HF)) as [gs [Hp Hr Hl Hsp Hnb Hrows Hk]].
  rewrite Hrows. split; [eapply sound_peak|eapply sound_valley]; eauto; lia.
Qed.
Print Assumptions C12_peak_valley.

(** C13: concave and convex, every three bins. *)
Theorem C13_concave_convex : forall wu d solver sp fixed user splits0 xs ys sw f M g X,
  0 < wu -> (forall w, In w sw -> 0 <= w) -> d = IV \/ d = JS -> 0 < M ->
  fit_numerical wu d solver sp fixed user splits0 xs ys sw = Some (Ok f) -> solved f solver M g X ->
  (g_trend g = TConcave ->
     all_triples (fun r1 r2 r3 => (rate r1 + rate r3 < 2 * rate r2 + 2 / inject_Z M)%Q) (clean_rows f)) /\
  (g_trend g = TConvex ->
     all_triples (fun r1 r2 r3 => (2 * rate r2 < rate r1 + rate r3 + 2 / inject_Z M)%Q) (clean_rows f)).
Proof.
  intros * Hw Hsw Hd HM Hf (Hn & Hs & HF). pose proof (fit_pos _ _ _ _ _ _ _ _ _ _ _ Hw Hsw Hd Hf) as [Pn Pe].
  destruct (fit_groups _ _ _ _ _ _ _ _ _ _ _ _ Hf Hn Hs (feasible_structural _ _ _ _ _ _ _ HF)) as [gs [Hp Hr Hl Hsp Hnb Hrows Hk]].
  rewrite Hrows. split; [eapply sound_concave|eapply sound_convex]; eauto; lia.
Qed.
Print Assumptions C13_concave_convex.
(** The concave model also rejects valid binnings: two bins (always concave) with event rates 0.6 and
    0.7, the second made of two prebins, are infeasible. *)
Theorem C13_rejects_two_bins_refuted : exists ne ev gs, partition 3 gs /\ length gs = 2%nat /\
  rows_of ne ev gs = [(4, 6); (6, 14)] /\
  forall X, describes 3 gs X -> ~ concave 3 (rate_mat 1000000 ne ev) 1000000 X.
Proof.
  exists [4; 3; 3], [6; 7; 7], [(0, 0); (1, 2)]%nat.
  split; [repeat constructor|]. split; [reflexivity|]. split; [reflexivity|].
  intros X Hr Hc. assert (Hp : partition 3 [(0, 0); (1, 2)]%nat) by repeat constructor.
  specialize (Hc 2%nat 1%nat 0%nat ltac:(lia) ltac:(lia) ltac:(lia)).
  rewrite (row_rate_end 3 _ X Hp Hr _ 1 2) in Hc by (cbn; tauto).
  rewrite (row_rate_end 3 _ X Hp Hr _ 0 0) in Hc by (cbn; tauto).
  assert (No : forall s, ~ In (s, 1%nat) [(0, 0); (1, 2)]%nat) by (intros s [E|[E|[]]]; discriminate).
  rewrite (row_rate_other 3 _ X Hr _ 1 ltac:(lia) No) in Hc.
  rewrite (diag0 3 _ X Hr 1 ltac:(lia) No) in Hc.
  rewrite (diag1 3 _ X Hp Hr 1 2) in Hc by (cbn; tauto). rewrite (diag1 3 _ X Hp Hr 0 0) in Hc by (cbn; tauto).
  vm_compute in Hc. apply Hc. reflexivity.
Qed.
Print Assumptions C13_rejects_two_bins_refuted.

(** C14: the p-value requirement holds in the table, and the posted constraints forbid nothing else. *)
Theorem C14_pvalue_honoured : forall wu d solver sp fixed user splits0 xs ys sw f M g X pol test,
  fit_numerical wu d solver sp fixed user splits0 xs ys sw = Some (Ok f) -> solved f solver M g X ->
  g_pviol g = pviol_of pol test (pb_nev (f_prebins f)) (pb_ev (f_prebins f)) ->
  pvalue_ok pol test (clean_rows f).
Proof.
  intros * Hf (Hn & Hs & HF) Ep. destruct (fit_groups _ _ _ _ _ _ _ _ _ _ _ _ Hf Hn Hs (feasible_structural _ _ _ _ _ _ _ HF)) as [gs [Hp Hr Hl Hsp Hnb Hrows Hk]].
  destruct HF as (_ & _ & _ & _ & _ & _ & _ & _ & HV & _). rewrite Ep in HV. rewrite Hrows.
  eapply pvalue_iff; eauto; lia.
Qed.
Print Assumptions C14_pvalue_honoured.
Theorem C14_only_violations_excluded : forall ne ev pol test gs X, (0 < length ne)%nat -> length ne = length ev ->
  partition (length ne) gs -> describes (length ne) gs X -> pvalue_ok pol test (rows_of ne ev gs) ->
  violation_constrs (pviol_of pol test ne ev) X.
Proof. intros * Hn Hl Hp Hr H. eapply pvalue_iff; eauto. Qed.
Print Assumptions C14_only_violations_excluded.

(** C15: every partition meeting the request is feasible (trends none/ascending/descending/peak/valley;
    ascending/descending with min_event_rate_diff > 0, i.e. without the pre-processing cuts). *)
Theorem C15_valid_binning_feasible_partial : forall ne ev gs M g pol test md,
  (0 < length ne)%nat -> length ne = length ev -> 0 < M -> partition (length ne) gs ->
  (forall a, In a ne -> 0 < a) -> (forall a, In a ev -> 0 < a) ->
  g_md0 g = false -> g_pviol g = pviol_of pol test ne ev -> g_dviol g = dviol_of md M ne ev ->
  spec_ok ne ev gs M g pol test md ->
  exists X, describes (length ne) gs X /\ feasible (length ne) (rate_mat M ne ev) M (at0 ne) (at0 ev) g X.
Proof.
  intros * Hn Hl HM Hp Pn Pe Hmd Epv Edv Hok. exists (mat_of gs). split; [apply mat_of_represents|].
  eapply feasible_complete; eauto. apply mat_of_represents.
Qed.
Print Assumptions C15_valid_binning_feasible_partial.
(** ... and a trend request alone (with the pre-processing cuts) never makes the model infeasible. *)
Theorem C15_trend_alone_feasible : forall ne ev M g tc, (0 < length ne)%nat -> length ne = length ev -> 0 < M ->
  (forall a, In a ne -> 0 < a) -> (forall a, In a ev -> 0 < a) -> (tc <= length ne)%nat ->
  In (g_trend g) [TNone; TAscending; TDescending; TConcave; TConvex; TPeak; TValley; TPeakHeuristic tc; TValleyHeuristic tc] ->
  exists X, trend_constr (length ne) (rate_mat M ne ev) M g X /\
    bool_vars (length ne) X /\ unique_assignment (length ne) X /\ continuity (length ne) X.
Proof.
  intros * Hn Hl HM Pn Pe Htc Hin. exists (mat_of [(0, length ne - 1)%nat]).
  pose proof (mat_of_represents (length ne) [(0, length ne - 1)%nat]) as Hr. split.
  - apply single_trend; auto; [apply rate_mat_bounded; auto; lia|]. intros t Ht. cbn in Hin.
    destruct Ht as [Ht|Ht]; rewrite Ht in Hin; intuition congruence.
  - exact (represents_structural _ _ _ (single_partition _ Hn) Hr).
Qed.
Print Assumptions C15_trend_alone_feasible.

(** C15 fails with min_event_rate_diff = 0 (the default): the pre-processing of the ascending model
    rejects a partition with increasing event rates (0.2 then 0.55) that respects all limits. *)
Definition ex15_ne := [9; 7; 8; 1].
Definition ex15_ev := [1; 3; 2; 9].
Definition ex15_g (md0 : bool) := {| g_trend := TAscending; g_min_bins := None; g_max_bins := None;
  g_min_size := None; g_max_size := None; g_min_ne := None; g_max_ne := None; g_min_e := None; g_max_e := None;
  g_md0 := md0; g_fixed := None; g_pviol := []; g_dviol := [] |}.
Theorem C15_preprocessing_rejects_valid_refuted :
  let gs := [(0, 1); (2, 3)]%nat in
  partition 4 gs /\ spec_ok ex15_ne ex15_ev gs 1000000 (ex15_g true) PVNone (fun _ _ => false) None /\
  (forall X, describes 4 gs X ->
    ~ feasible 4 (rate_mat 1000000 ex15_ne ex15_ev) 1000000 (at0 ex15_ne) (at0 ex15_ev) (ex15_g true) X) /\
  exists X, describes 4 gs X /\
    feasible 4 (rate_mat 1000000 ex15_ne ex15_ev) 1000000 (at0 ex15_ne) (at0 ex15_ev) (ex15_g false) X.
Proof.
  intros gs. assert (Hp : partition 4 gs) by repeat constructor.
  assert (Hok : forall b, spec_ok ex15_ne ex15_ev gs 1000000 (ex15_g b) PVNone (fun _ _ => false) None).
  { intros b. constructor; cbn; try (repeat constructor; discriminate); try exact I; try discriminate; repeat constructor; try discriminate; try (vm_compute; discriminate). }
  split; [exact Hp|]. split; [apply Hok|]. split.
  - intros X Hr (_ & _ & _ & _ & _ & _ & _ & Ht & _). destruct Ht as [_ Ht].
    destruct (Ht eq_refl 1%nat ltac:(lia) ltac:(lia)) as [E _].
    + vm_compute. reflexivity.
    + rewrite (diag1 4 gs X Hp Hr 0 1) in E by (cbn; tauto). discriminate.
  - apply (C15_valid_binning_feasible_partial ex15_ne ex15_ev gs 1000000 (ex15_g false) PVNone (fun _ _ => false) None);
      try reflexivity; try exact Hp; try (cbn; lia); try apply Hok;
      cbn; intros a H; intuition lia.
Qed.
Print Assumptions C15_preprocessing_rejects_valid_refuted.

(** C06 (optimisation part): a split still fixed after refinement is a split of the result; with the
    refinement part, a split the user fixed is kept whenever fit succeeds. *)
Theorem C06_fixed_splits_in_result : forall wu d solver sp fx user splits0 xs ys sw f M g X s,
  length fx = length splits0 ->
  fit_numerical wu d solver sp (Some fx) user splits0 xs ys sw = Some (Ok f) -> solved f solver M g X ->
  g_fixed g = pb_fixed (f_prebins f) ->
  In (s, true) (combine splits0 fx) -> In s (f_splits f).
Proof.
  intros * Hfx Hf (Hn & Hs & HF) Eg Hin.
  destruct (fit_groups _ _ _ _ _ _ _ _ _ _ _ _ Hf Hn Hs (feasible_structural _ _ _ _ _ _ _ HF)) as [gs [Hp Hr Hl Hsp Hnb Hrows Hk]].
  destruct HF as (_ & _ & _ & _ & _ & _ & _ & _ & _ & _ & Hfix).
  unfold fit_numerical in Hf. destruct (compute_prebins _ _ _ _ _ _ _ _ _) as [[pb|e]|] eqn:Ep; try discriminate.
  injection Hf as Hf.
  assert (Hpb : f_prebins f = pb).
  { unfold finish_fit in Hf. cbv zeta in Hf.
    repeat match type of Hf with context [match ?x with Some _ => _ | None => _ end] => destruct x; try discriminate end.
    injection Hf as <-. reflexivity. }
  rewrite Hpb in *.
  destruct (CoreFinal.C06_fixed_refine _ _ _ _ _ _ _ _ _ Hfx Ep) as (f' & E1 & L1 & K).
  specialize (K s Hin). apply In_nth_error in K. destruct K as [i Hi].
  assert (A : nth_error (pb_splits pb) i = Some s /\ nth_error f' i = Some true).
  { clear -Hi. revert f' i Hi. generalize (pb_splits pb). induction l as [|x l IH]; intros [|b f'] i Hi; try (destruct i; discriminate).
    destruct i; [injection Hi as -> ->; split; reflexivity|]. apply (IH f' i). exact Hi. }
  destruct A as [A1 A2]. apply (Hk i s A1). rewrite Eg, E1 in Hfix.
  refine (proj1 (fixed_iff _ gs X (Nat.lt_trans 0 1 _ Nat.lt_0_1 Hn) Hp Hr _) Hfix f' i eq_refl _ A2).
  assert (i < length (pb_splits pb))%nat by (apply nth_error_Some; congruence). lia.
Qed.
Print Assumptions C06_fixed_splits_in_result.

(** C17: no feasible solution -> no splits and one clean bin with all clean records. *)
Theorem C17_no_solution_single_bin : forall d solver sp fixed user splits0 xs ys sw f,
  fit_numerical 1 d solver sp fixed user splits0 xs ys sw = Some (Ok f) -> nondecreasing splits0 ->
  let nev := pb_nev (f_prebins f) in let ev := pb_ev (f_prebins f) in
  (1 < length nev)%nat -> solver nev ev = solution_vector (length nev) NoSolution ->
  let data := to_csamples (split_masks sp xs ys sw) in
  f_splits f = [] /\
  clean_rows f = [(class_weight_total data true, class_weight_total data false)].
Proof.
  intros * Hf Hnd nev ev Hn Hs data. destruct (no_solution _ _ _ _ _ _ _ _ _ _ _ Hf Hn Hs) as [E1 E2].
  split; [exact E1|]. rewrite E2. destruct (fit_prebins _ _ _ _ _ _ _ _ _ _ _ Hf) as [Ep _].
  unfold fit_numerical in Hf. destruct (compute_prebins _ _ _ _ _ _ _ _ _) as [[pb|e]|] eqn:Ec; try discriminate.
  injection Hf as Hf.
  assert (Hpb : f_prebins f = pb).
  { unfold finish_fit in Hf. cbv zeta in Hf.
    repeat match type of Hf with context [match ?x with Some _ => _ | None => _ end] => destruct x; try discriminate end.
    injection Hf as <-. reflexivity. }
  destruct (CoreFinal.C05_refinement 1 d data fixed user 0 false splits0 Hnd) as (r & Er & Hr).
  unfold data in Er. rewrite Ec in Er. injection Er as <-. destruct Hr as (_ & _ & Ht).
  destruct Ht as (_ & _ & T1 & T2); [reflexivity| |].
  - intros E. unfold nev in Hn. rewrite Hpb in Hn. rewrite Hpb in Ep. rewrite (CoreP.rf_nev _ _ _ _ _ Ep), E in Hn. cbn in Hn. lia.
  - unfold nev, ev. rewrite Hpb. unfold data. rewrite T1, T2. reflexivity.
Qed.
Print Assumptions C17_no_solution_single_bin.

(** A concrete fit meeting the hypotheses of C08-C14: three prebins, ascending, at most two bins,
    at least three records per bin. *)
Definition cx_ne := [2; 1; 1].
Definition cx_ev := [1; 1; 2].
Definition cx_gs := [(0, 1); (2, 2)]%nat.
Definition cx_g := {| g_trend := TAscending; g_min_bins := Some 2; g_max_bins := Some 2;
  g_min_size := Some 3; g_max_size := None; g_min_ne := Some 1; g_max_ne := None; g_min_e := None; g_max_e := Some 5;
  g_md0 := false; g_fixed := None; g_pviol := pviol_of PVAll (fun r1 r2 => Z.eqb (snd r1) (snd r2) && Z.eqb (fst r1) (fst r2)) cx_ne cx_ev;
  g_dviol := dviol_of (Some 50000) 1000000 cx_ne cx_ev |}.
Definition cx_solver (a b : list Z) := solution_vector (length a) (Solved (mat_of cx_gs)).
Definition cx_xs := map XNum [1; 1; 1; 4; 4; 8; 8; 8].
Definition cx_ys := [Y0; Y0; Y1; Y0; Y1; Y0; Y1; Y1].
Example C08_to_C14_hyps_met : exists f,
  fit_numerical 1 IV cx_solver SpNone None None [3; 6] cx_xs cx_ys (repeat 1 8) = Some (Ok f) /\
  solved f cx_solver 1000000 cx_g (mat_of cx_gs) /\ f_splits f = [6] /\ clean_rows f = [(3, 2); (1, 2)].
Proof.
  eexists. split; [reflexivity|]. split; [|split; reflexivity].
  assert (Hp : partition 3 cx_gs) by repeat constructor.
  split; [apply Nat.ltb_lt; vm_compute; reflexivity|]. split; [vm_compute; reflexivity|].
  apply (feasible_complete cx_ne cx_ev cx_gs 1000000 cx_g PVAll (fun r1 r2 => Z.eqb (snd r1) (snd r2) && Z.eqb (fst r1) (fst r2)) (Some 50000)
     (mat_of cx_gs)); try reflexivity; try (cbn; lia); try exact Hp; try apply mat_of_represents;
    try (intros a; cbn; intuition lia).
  constructor.
  - repeat constructor; vm_compute; discriminate.
  - split; intros a E; injection E as <-; vm_compute; discriminate.
  - repeat constructor; intros a E; try discriminate; injection E as <-; vm_compute; discriminate.
  - repeat constructor; intros a E; try discriminate; injection E as <-; vm_compute; discriminate.
  - repeat constructor; intros a E; try discriminate; injection E as <-; vm_compute; discriminate.
  - repeat constructor.
  - intros k E. injection E as <-. cbn [rows_of map cx_gs neighbours]. split; [left; vm_compute; discriminate|exact I].
  - discriminate.
Qed.

(** The tolerance in C11 is needed: with M = 10^6 a strictly decreasing pair of rates is accepted as
    ascending (both rates truncate to the same scaled integer). *)
Definition tx_gs := [(0, 0); (1, 1)]%nat.
Theorem C11_exact_monotone_refuted : exists f solver M g X,
  fit_numerical 1 IV solver SpNone None None [3] (map XNum [1; 1; 4; 4]) [Y0; Y1; Y0; Y1]
    [1000000; 1000001; 1; 1] = Some (Ok f) /\
  solved f solver M g X /\ M = 1000000 /\ g_trend g = TAscending /\ g_md0 g = true /\
  exists r1 r2, clean_rows f = [r1; r2] /\ (rate r2 < rate r1)%Q.
Proof.
  eexists. exists (fun a b => solution_vector 2 (Solved (mat_of tx_gs))), 1000000, (ex15_g true), (mat_of tx_gs).
  split; [reflexivity|]. split; [|].
  - split; [apply Nat.ltb_lt; vm_compute; reflexivity|]. split; [vm_compute; reflexivity|].
    assert (Hp : partition 2 tx_gs) by repeat constructor.
    assert (Hok : feasible 2 (rate_mat 1000000 [1000000; 1] [1000001; 1]) 1000000 (at0 [1000000; 1]) (at0 [1000001; 1]) (ex15_g true) (mat_of tx_gs)).
    { assert (Hr := mat_of_represents 2 tx_gs). destruct (represents_structural 2 tx_gs _ Hp Hr) as (S1 & S2 & S3).
      refine (conj S1 (conj S2 (conj S3 (conj I (conj I (conj _ (conj _ (conj _ (conj _ (conj _ I)))))))))).
      - intros i Hi. split; discriminate.
      - intros i Hi. split; discriminate.
      - split.
        + intros i z Hi Hz. assert (i = 1%nat) by lia. assert (z = 0%nat) by lia. subst. vm_compute. discriminate.
        + intros _ i H1 H2 Hc. assert (i = 0%nat) by lia. subst. vm_compute in Hc. discriminate.
      - intros v [].
      - intros v []. }
    exact Hok.
  - repeat split. eexists _, _. split; [reflexivity|]. vm_compute. reflexivity.
Qed.
Print Assumptions C11_exact_monotone_refuted.
