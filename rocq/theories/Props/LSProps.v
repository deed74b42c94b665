(** C77: solver="ls" (binning/ls.py). LocalSolver is trusted to return an assignment satisfying the posted constraints ([ls_solved]). *)
From Coq Require Import List ZArith Bool Arith Lia QArith Sorting.
From Verif Require Import Model.Arr Model.Core Model.CP Model.LS Spec.CoreSpec Spec.CPSpec Spec.CPFitSpec Spec.LSSpec
  Proofs.ArrP Proofs.CoreP Proofs.FitP Proofs.CoreFinal Proofs.CPP Proofs.CPC Proofs.CPTable Proofs.CPFinal Proofs.LSP Proofs.LSQ Proofs.LSR Props.CPProps.
Import ListNotations.
Open Scope Z_scope.

(** the assignments of x, a, z are exactly the partitions of the prebins into consecutive groups: x marks the last prebin of each
    group, z there is the number of further prebins of the group; each partition has an assignment, each assignment one partition *)
Theorem C77_assignments_are_partitions : forall n, (0 < n)%nat ->
  (forall v, ls_basic n v -> exists gs, partition n gs /\ selects n gs v /\
     (forall s e, In (s, e) gs -> l_z v e = Z.of_nat (e - s)) /\
     forall gs', partition n gs' -> selects n gs' v -> gs' = gs) /\
  (forall gs, partition n gs -> exists v, ls_basic n v /\ selects n gs v).
Proof.
  intros n Hn. split.
  - intros v HB. destruct (ls_groups n v Hn HB) as (gs & Hp & HI). exists gs. pose proof (ls_groups_selects n v Hn HB gs HI) as HS.
    split; [exact Hp|]. split; [exact HS|]. split.
    + intros s e I. pose proof (chain_in _ _ _ _ _ Hp I). apply HI in I. lia.
    + intros gs' Hp' HS'. apply (chain_ends 0 n gs' Hp' gs Hp). intros i. split; intros (s & I).
      * pose proof (chain_in _ _ _ _ _ Hp' I). apply (HS i ltac:(lia)). apply (HS' i ltac:(lia)). eauto.
      * pose proof (chain_in _ _ _ _ _ Hp I). apply (HS' i ltac:(lia)). apply (HS i ltac:(lia)). eauto.
  - intros gs Hp. exists (ls_of gs). split; [now apply ls_of_basic|now apply ls_of_selects].
Qed.
Print Assumptions C77_assignments_are_partitions.

Lemma ls_fit_groups wu d solver sp fixed user splits0 xs ys sw f M k g v :
  fit_numerical wu d solver sp fixed user splits0 xs ys sw = Some (Ok f) -> ls_solved f solver M k g v ->
  let ne := pb_nev (f_prebins f) in
  exists gs, fit_facts f solver (mat_of gs) gs /\
    forall s e, In (s, e) gs <-> (e < length ne)%nat /\ l_x v e = 1 /\ l_z v e = Z.of_nat e - Z.of_nat s.
Proof.
  intros Hf (Hn & Hs & HF) ne. fold ne in Hn, Hs, HF. pose proof HF as (HB & _).
  destruct (ls_groups (length ne) v ltac:(lia) HB) as (gs & Hp & HI).
  assert (ES : solver ne (pb_ev (f_prebins f)) = solution_vector (length ne) (Solved (mat_of gs))).
  { rewrite Hs. unfold ls_vector, solution_vector. apply map_ext_in. intros i Hi. apply in_seq in Hi.
    rewrite (lx ne v gs ltac:(lia) HB Hp HI i ltac:(lia)). destruct (mat_of_01 gs i) as [-> | ->]; reflexivity. }
  destruct (fit_groups _ _ _ _ _ _ _ _ _ _ _ _ Hf Hn ES (represents_structural _ gs _ Hp (mat_of_represents _ gs))) as [gs' F].
  exists gs. split; [|exact HI]. replace gs with gs' at 2; [exact F|].
  destruct F as [Hp' Hr' _ _ _ _ _]. fold ne in Hp', Hr'. apply (chain_ends 0 (length ne) gs' Hp' gs Hp). intros i. split; intros (s & I).
  - pose proof (chain_in _ _ _ _ _ Hp' I). apply (diag_end _ gs _ Hp (mat_of_represents _ gs) i ltac:(lia)). apply (diag_end _ gs' _ Hp' Hr' i ltac:(fold ne; lia)). eauto.
  - pose proof (chain_in _ _ _ _ _ Hp I). apply (diag_end _ gs' _ Hp' Hr' i ltac:(fold ne; lia)). apply (diag_end _ gs _ Hp (mat_of_represents _ gs) i ltac:(lia)). eauto.
Qed.

(** every request that ls.py reads is met by the binning table *)
Theorem C77_requests_honoured : forall wu d solver sp fixed user splits0 xs ys sw f M k g v,
  0 < wu -> (forall w, In w sw -> 0 <= w) -> d = IV \/ d = JS -> 0 < M -> 0 <= k <= M ->
  fit_numerical wu d solver sp fixed user splits0 xs ys sw = Some (Ok f) -> ls_solved f solver M k g v ->
  (forall tc, g_trend g = TPeakHeuristic tc \/ g_trend g = TValleyHeuristic tc -> (tc <= length (pb_nev (f_prebins f)))%nat) ->
  length (clean_rows f) = (length (f_splits f) + 1)%nat /\
  within (g_min_bins g) (g_max_bins g) (Z.of_nat (length (f_splits f) + 1)) /\
  Forall (fun r => within (g_min_size g) (g_max_size g) (records r) /\
     within (g_min_ne g) (g_max_ne g) (fst r) /\ within (g_min_e g) (g_max_e g) (snd r)) (clean_rows f) /\
  ls_trend_res M k (g_trend g) (clean_rows f) /\
  (forall fx i s, g_fixed g = Some fx -> nth_error fx i = Some true -> nth_error (pb_splits (f_prebins f)) i = Some s -> In s (f_splits f)).
Proof.
  intros * Hw Hsw Hd HM Hk Hf Hsol Htc. pose proof (fit_pos _ _ _ _ _ _ _ _ _ _ _ Hw Hsw Hd Hf) as [Pn Pe].
  destruct (ls_fit_groups _ _ _ _ _ _ _ _ _ _ _ _ _ _ _ Hf Hsol) as (gs & [Hp Hr Hl Hsp Hnb Hrows Hkept] & HI).
  destruct Hsol as (Hn & Hs & HF). set (ne := pb_nev (f_prebins f)) in *. set (ev := pb_ev (f_prebins f)) in *. pose proof HF as (HB & _).
  assert (Hn0 : (0 < length ne)%nat) by lia.
  pose proof (sound_link ne ev M k g v gs Hn0 Hl HM Hk Pn Pe HB Hp HI HF Htc) as HC.
  destruct (sound_sizes _ _ _ _ _ _ Hn0 Hl Hp (mat_of_represents _ gs) HC) as [A B]. cbn [strip g_min_bins g_max_bins g_min_size g_max_size g_min_ne g_max_ne g_min_e g_max_e] in A, B.
  rewrite Hrows. split; [unfold rows_of; rewrite map_length; lia|].
  split; [replace (length (f_splits f) + 1)%nat with (length gs) by lia; exact A|]. split; [exact B|].
  split; [exact (sound_trend ne ev M k g v gs Hn0 Hl HM Hk Pn Pe HB Hp HI HF Htc)|].
  intros fx i s Eg Hi Hsi. apply (Hkept i s Hsi). destruct HF as (_ & _ & _ & _ & _ & _ & FX). unfold ls_fixed in FX. rewrite Eg in FX.
  assert (i < length (pb_splits (f_prebins f)))%nat by (apply nth_error_Some; congruence).
  apply (ls_groups_selects _ v Hn0 HB gs HI i ltac:(lia)). apply FX; [lia|exact Hi].
Qed.
Print Assumptions C77_requests_honoured.

Lemma ls_of_groups n gs : (0 < n)%nat -> partition n gs ->
  ls_basic n (ls_of gs) /\ forall s e, In (s, e) gs <-> (e < n)%nat /\ l_x (ls_of gs) e = 1 /\ l_z (ls_of gs) e = Z.of_nat e - Z.of_nat s.
Proof.
  intros Hn Hp. pose proof (ls_of_basic n gs Hn Hp) as HB. split; [exact HB|].
  destruct (ls_groups n _ Hn HB) as (gs' & Hp' & HI). pose proof (ls_groups_selects n _ Hn HB gs' HI) as HS'. pose proof (ls_of_selects n gs Hp) as HS.
  assert (E : gs' = gs); [|intros s e; rewrite <- (HI s e), E; reflexivity]. apply (chain_ends 0 n gs' Hp' gs Hp). intros i. split; intros (s & I).
  - pose proof (chain_in _ _ _ _ _ Hp' I). apply (HS i ltac:(lia)). apply (HS' i ltac:(lia)). eauto.
  - pose proof (chain_in _ _ _ _ _ Hp I). apply (HS' i ltac:(lia)). apply (HS i ltac:(lia)). eauto.
Qed.

(** every partition of the prebins that meets the request on exact event rates satisfies the constraints posted (trends none, ascending,
    descending, peak, valley; for ascending and descending with min_event_rate_diff <> 0, so without the pre-processing cuts) *)
Theorem C77_valid_binning_feasible : forall M k ne ev gs g, 0 < M -> 0 <= k <= M -> (0 < length ne)%nat -> length ne = length ev ->
  pos_list ne -> pos_list ev -> partition (length ne) gs -> ls_request M k ne ev gs g ->
  (g_md0 g = true -> g_trend g <> TAscending /\ g_trend g <> TDescending) ->
  exists v, selects (length ne) gs v /\ ls_feasible M k ne ev g v.
Proof.
  intros * HM Hk Hn Hl Pn Pe Hp HR Hmd. destruct (ls_of_groups _ gs Hn Hp) as [HB HI]. exists (ls_of gs). split; [now apply ls_of_selects|].
  exact (complete_link ne ev M k g (ls_of gs) gs Hn Hl HM Hk Pn Pe HB Hp HI HR Hmd).
Qed.
Print Assumptions C77_valid_binning_feasible.

(** the objective is the total scaled divergence of the table, and an optimal assignment beats every partition meeting the request *)
Theorem C77_optimal_divergence : forall wu d solver sp fixed user splits0 xs ys sw f M k g v phi,
  0 < wu -> (forall w, In w sw -> 0 <= w) -> d = IV \/ d = JS -> 0 < M -> 0 <= k <= M ->
  fit_numerical wu d solver sp fixed user splits0 xs ys sw = Some (Ok f) -> ls_solved f solver M k g v ->
  let ne := pb_nev (f_prebins f) in let ev := pb_ev (f_prebins f) in
  let V := div_mat phi ne ev in
  ls_objective (length ne) V v = zsum (map phi (clean_rows f)) /\
  ((forall v', ls_feasible M k ne ev g v' -> ls_objective (length ne) V v' <= ls_objective (length ne) V v) ->
   (g_md0 g = true -> g_trend g <> TAscending /\ g_trend g <> TDescending) ->
   forall gs', partition (length ne) gs' -> ls_request M k ne ev gs' g -> zsum (map phi (rows_of ne ev gs')) <= zsum (map phi (clean_rows f))).
Proof.
  intros * Hw Hsw Hd HM Hk Hf Hsol ne ev V. pose proof (fit_pos _ _ _ _ _ _ _ _ _ _ _ Hw Hsw Hd Hf) as [Pn Pe].
  destruct (ls_fit_groups _ _ _ _ _ _ _ _ _ _ _ _ _ _ _ Hf Hsol) as (gs & [Hp Hr Hl Hsp Hnb Hrows Hkept] & HI).
  destruct Hsol as (Hn & Hs & HF). fold ne ev in Hn, Hs, HF, Hp, Hl, Hrows, Pn, Pe, HI. pose proof HF as (HB & _).
  assert (Hn0 : (0 < length ne)%nat) by lia.
  assert (OB : forall hs w, partition (length ne) hs -> ls_basic (length ne) w ->
    (forall s e, In (s, e) hs <-> (e < length ne)%nat /\ l_x w e = 1 /\ l_z w e = Z.of_nat e - Z.of_nat s) ->
    ls_objective (length ne) V w = zsum (map phi (rows_of ne ev hs))).
  { intros hs w Hph HBw HIw. rewrite (link_objective ne ev w hs Hn0 Hl HBw Hph HIw). unfold rows_of. rewrite map_map. apply zsum_map_ext.
    intros [s e] Hin. pose proof (chain_in _ _ _ _ _ Hph Hin). unfold at_group, V, div_mat. cbn [fst snd]. rewrite !cum_mat_gsum by lia. reflexivity. }
  split; [rewrite Hrows; now apply OB|]. intros Hopt Hmd gs' Hp' HR.
  destruct (ls_of_groups _ gs' Hn0 Hp') as [HB' HI'].
  rewrite Hrows, <- (OB gs v Hp HB HI), <- (OB gs' (ls_of gs') Hp' HB' HI'). apply Hopt.
  exact (complete_link ne ev M k g (ls_of gs') gs' Hn0 Hl HM Hk Pn Pe HB' Hp' HI' HR Hmd).
Qed.
Print Assumptions C77_optimal_divergence.

(** any other status: one bin with every record *)
Theorem C77_no_solution_single_bin : forall d solver sp fixed user splits0 xs ys sw f,
  fit_numerical 1 d solver sp fixed user splits0 xs ys sw = Some (Ok f) -> nondecreasing splits0 ->
  let nev := pb_nev (f_prebins f) in let ev := pb_ev (f_prebins f) in
  (1 < length nev)%nat -> solver nev ev = ls_vector (length nev) LSNone ->
  let data := to_csamples (split_masks sp xs ys sw) in
  f_splits f = [] /\ clean_rows f = [(class_weight_total data true, class_weight_total data false)].
Proof. intros * Hf Hs nev ev Hn Hv. exact (C17_no_solution_single_bin _ _ _ _ _ _ _ _ _ _ Hf Hs Hn Hv). Qed.
Print Assumptions C77_no_solution_single_bin.

(** with min_event_rate_diff = 0 (the default) the pre-processing rejects a partition with increasing event rates (0.2, 0.55) *)
Lemma ex77_met b : ls_request 1000000 0 ex15_ne ex15_ev [(0, 1); (2, 3)]%nat (ex15_g b).
Proof. constructor; cbn; try exact I; try discriminate; repeat constructor; try discriminate; vm_compute; discriminate. Qed.
Theorem C77_preprocessing_rejects_valid_refuted :
  let gs := [(0, 1); (2, 3)]%nat in
  partition 4 gs /\ ls_request 1000000 0 ex15_ne ex15_ev gs (ex15_g true) /\
  forall v, selects 4 gs v -> ~ ls_feasible 1000000 0 ex15_ne ex15_ev (ex15_g true) v.
Proof.
  intros gs. split; [repeat constructor|]. split; [apply ex77_met|].
  intros v Hs (_ & Ht & _). destruct Ht as [_ Ht].
  assert (E : l_x v 1%nat = 0) by (apply (Ht eq_refl); [lia|cbn; lia|vm_compute; reflexivity]).
  assert (E1 : l_x v 1%nat = 1) by (apply (Hs 1%nat ltac:(lia)); exists 0%nat; cbn; tauto). lia.
Qed.
Print Assumptions C77_preprocessing_rejects_valid_refuted.

(** with the concave trend the constraints reject a partition into two bins, although two bins are always concave *)
Theorem C77_concave_rejects_two_bins_refuted : exists ne ev gs, partition 3 gs /\ length gs = 2%nat /\ rows_of ne ev gs = [(4, 6); (6, 14)] /\
  forall v, ls_basic 3 v -> selects 3 gs v -> ~ ls_concave 3 (rate_mat 1000000 ne ev) 1000000 v.
Proof.
  destruct (C13_rejects_two_bins_refuted) as (ne & ev & gs & Hp & Hl & Hrows & HX). exists ne, ev, gs.
  split; [exact Hp|]. split; [exact Hl|]. split; [exact Hrows|]. intros v HB HS HC.
  destruct (C77_assignments_are_partitions 3 ltac:(lia)) as [A _]. destruct (ls_groups 3 v ltac:(lia) HB) as (gs' & Hp' & HI).
  assert (E : gs = gs').
  { destruct (A v HB) as (h & _ & _ & _ & U). transitivity h; [now apply U|symmetry; apply U; [exact Hp'|]]. exact (ls_groups_selects 3 v ltac:(lia) HB gs' HI). }
  subst gs'. apply (HX (mat_of gs) (mat_of_represents 3 gs)).
  exact (proj1 (link_concave [0; 0; 0] [0; 0; 0] 1000000 v gs ltac:(cbn; lia) eq_refl HB Hp HI _) HC).
Qed.
Print Assumptions C77_concave_rejects_two_bins_refuted.

Definition ex77_g := {| g_trend := TDescending; g_min_bins := Some 2; g_max_bins := Some 2;
  g_min_size := Some 2; g_max_size := None; g_min_ne := None; g_max_ne := Some 3; g_min_e := None; g_max_e := None;
  g_md0 := false; g_fixed := None; g_pviol := []; g_dviol := [] |}.
Definition ex77_x := [XNum 1; XNum 1; XNum 1; XNum 2; XNum 2; XNum 3; XNum 3].
Definition ex77_y := [Y0; Y1; Y1; Y0; Y1; Y0; Y1].
Example C77_hyps_met : exists f v,
  fit_numerical 1 IV (fun _ _ => [true; false; true]) SpNone None None [2; 3] ex77_x ex77_y [1; 1; 1; 1; 1; 1; 1] = Some (Ok f) /\
  ls_solved f (fun _ _ => [true; false; true]) 1000000 100000 ex77_g v /\ clean_rows f = [(1, 2); (2, 2)] /\
  ls_request 1000000 100000 [1; 1; 1] [2; 1; 1] [(0, 0); (1, 2)]%nat ex77_g.
Proof.
  assert (R : ls_request 1000000 100000 [1; 1; 1] [2; 1; 1] [(0, 0); (1, 2)]%nat ex77_g).
  { constructor; cbn; try exact I; try discriminate; repeat constructor; try discriminate; try (vm_compute; discriminate);
      intros b Hb; injection Hb as <-; vm_compute; discriminate. }
  destruct (fit_numerical 1 IV (fun _ _ => [true; false; true]) SpNone None None [2; 3] ex77_x ex77_y [1; 1; 1; 1; 1; 1; 1]) as [[f|]|] eqn:E;
    [|exfalso; vm_compute in E; discriminate E|exfalso; vm_compute in E; discriminate E].
  assert (Ef : pb_nev (f_prebins f) = [1; 1; 1] /\ pb_ev (f_prebins f) = [2; 1; 1] /\ clean_rows f = [(1, 2); (2, 2)])
    by (vm_compute in E; injection E as <-; repeat split; reflexivity).
  destruct Ef as (E1 & E2 & E3). assert (Hp : partition 3 [(0, 0); (1, 2)]%nat) by repeat constructor.
  exists f, (ls_of [(0, 0); (1, 2)]%nat). split; [reflexivity|]. split; [|split; [exact E3|exact R]].
  unfold ls_solved. cbv zeta. rewrite E1, E2. split; [cbn; lia|]. split; [reflexivity|].
  destruct (ls_of_groups 3 _ ltac:(lia) Hp) as [HB HI].
  apply (complete_link [1; 1; 1] [2; 1; 1] 1000000 100000 ex77_g _ [(0, 0); (1, 2)]%nat); try assumption; try reflexivity; try (cbn; lia);
    try (intros a H; cbn in H; intuition lia); discriminate.
Qed.

(** As the code stands, no fit with solver='ls' gets as far as the solver: model_data returns five values where build_model unpacks six,
    so that _fit_optimizer raises ValueError for all prebins. The theorems above are about the model that build_model goes on to state. *)
Theorem C77_fit_raises_refuted : forall M V pv md answer ne ev, ls_fit_optimizer M V pv md answer ne ev = Err ValueError.
Proof. reflexivity. Qed.
Print Assumptions C77_fit_raises_refuted.
