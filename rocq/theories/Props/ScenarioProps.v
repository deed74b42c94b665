(** Property theorems for scenario-based binning, SBOptimalBinning (C65). The CP-SAT solver is trusted to return an
    assignment satisfying the posed constraints ([s_solved]). *)
From Coq Require Import List ZArith Bool Arith Lia QArith Qround Sorting.
From Verif Require Import Model.Arr Model.Core Model.CP Model.Multi Model.Lifecycle Model.Scenario
  Spec.CoreSpec Spec.CPSpec Spec.CPFitSpec Spec.ScenarioSpec
  Proofs.ArrP Proofs.CoreP Proofs.FitP Proofs.CoreFinal Proofs.CPP Proofs.CPC Proofs.CPTable Proofs.CPFinal
  Proofs.MultiP Proofs.MultiFinal Proofs.LifeR Proofs.ScenP Proofs.ScenQ Proofs.ScenR.
Import ListNotations.
Open Scope Z_scope.

(** The table of a scenario counts exactly that scenario's records, row by row (bins, special, missing), and the main
    table is the sum of the scenario tables. *)
Theorem C65_tables_exact : forall e o X w o' f, sb_env_ok e -> (forall s, In s X -> scen_valid s) ->
  sb_fit e o X w = (o', Some (Ok f)) ->
  let n_rows := (S (length (sf_splits f)) + 2)%nat in
  nondecreasing (sf_splits f) /\ length (sf_tables f) = length X /\
  (forall s sc, nth_error X s = Some sc -> exists t, nth_error (sf_tables f) s = Some t /\
     length (fst t) = n_rows /\ length (snd t) = n_rows /\
     forall k, (k < n_rows)%nat -> exists a b, nth_error (fst t) k = Some a /\ nth_error (snd t) k = Some b /\
       scen_count (sf_splits f) (se_sp e) sc true k a /\ scen_count (sf_splits f) (se_sp e) sc false k b) /\
  length (sf_nev f) = n_rows /\ length (sf_ev f) = n_rows /\
  forall k, (k < n_rows)%nat ->
    nth_error (sf_nev f) k = Some (zsum (map (fun t => nth k (fst t) 0) (sf_tables f))) /\
    nth_error (sf_ev f) k = Some (zsum (map (fun t => nth k (snd t) 0) (sf_tables f))).
Proof.
  intros * K HV Hf n_rows. apply sb_fit_inv in Hf. rename Hf into F.
  split; [rewrite (ss_splits _ _ _ _ _ F); eapply subseq_nondecr; [apply select_subseq|eapply prebin_splits_nondecr; eauto]|].
  split; [eapply s_tables_len; exact F|].
  assert (T : forall s sc, nth_error X s = Some sc -> exists t, nth_error (sf_tables f) s = Some t /\
     length (fst t) = n_rows /\ length (snd t) = n_rows /\
     forall k, (k < n_rows)%nat -> exists a b, nth_error (fst t) k = Some a /\ nth_error (snd t) k = Some b /\
       scen_count (sf_splits f) (se_sp e) sc true k a /\ scen_count (sf_splits f) (se_sp e) sc false k b)
    by (intros s sc Hs; apply (s_table_exact e o X w f s sc); auto).
  split; [exact T|].
  assert (L : forall t, In t (sf_tables f) -> length (fst t) = n_rows /\ length (snd t) = n_rows).
  { intros t Ht. apply In_nth_error in Ht. destruct Ht as (s & Hs). destruct (nth_error X s) as [sc|] eqn:Es.
    - destruct (T s sc Es) as (t' & Et & L1 & L2 & _). rewrite Hs in Et. injection Et as <-. auto.
    - apply nth_error_None in Es. rewrite <- (s_tables_len _ _ _ _ _ F) in Es. apply nth_error_None in Es. congruence. }
  assert (NE : sf_tables f <> []).
  { intros E. pose proof (s_tables_len _ _ _ _ _ F) as LL. rewrite E in LL. pose proof (ss_X _ _ _ _ _ F). destruct X; [congruence|discriminate]. }
  destruct (add_tables_nth (map fst (sf_tables f)) n_rows) as [A1 A2].
  { intros t Ht. apply in_map_iff in Ht. destruct Ht as (u & <- & Hu). apply L, Hu. } { intros E. apply map_eq_nil in E. contradiction. }
  destruct (add_tables_nth (map snd (sf_tables f)) n_rows) as [B1 B2].
  { intros t Ht. apply in_map_iff in Ht. destruct Ht as (u & <- & Hu). apply L, Hu. } { intros E. apply map_eq_nil in E. contradiction. }
  rewrite (ss_nev _ _ _ _ _ F), (ss_ev _ _ _ _ _ F). split; [exact A1|]. split; [exact B1|]. intros k Hk.
  rewrite (A2 k Hk), (B2 k Hk), !map_map. split; reflexivity.
Qed.
Print Assumptions C65_tables_exact.

(** Every request holds in every scenario: number of bins, bin sizes as shares of that scenario's records, trend (up to the
    resolution 1/M; a peak or valley turns at the same bin in all scenarios), p-value and rate difference; and every bin of
    every scenario contains events and non-events. *)
Theorem C65_requests_in_every_scenario : forall e o X w o' f M g Xm, sb_env_ok e -> (forall s, In s X -> scen_valid s) -> 0 < M ->
  sb_fit e o X w = (o', Some (Ok f)) -> s_solved e f M g Xm ->
  let tabs := map (bins_of f) (sf_tables f) in
  within (sg_min_bins g) (sg_max_bins g) (Z.of_nat (S (length (sf_splits f)))) /\
  s_trend_holds M (sg_trend g) tabs /\
  Forall (pvalue_ok (sg_pol g) (sg_test g)) tabs /\
  (forall k, sg_md g = Some k -> Forall (neighbours (apart_res M k)) tabs) /\
  (forall s sc rows, nth_error X s = Some sc -> nth_error tabs s = Some rows ->
     Forall (fun r => (forall q, sg_min_size g = Some q -> (q * inject_Z (Z.of_nat (length (fst sc))) <= inject_Z (records r))%Q) /\
                      (forall q, sg_max_size g = Some q -> (inject_Z (records r) < q * inject_Z (Z.of_nat (length (fst sc))) + 1)%Q)) rows) /\
  (forall rows, In rows tabs -> length rows = S (length (sf_splits f)) /\ Forall (fun r => 0 < fst r /\ 0 < snd r) rows).
Proof. intros * K HV HM Hf HX. apply sb_fit_inv in Hf. exact (s_requests e o X w f M g Xm K HV HM Hf HX). Qed.
Print Assumptions C65_requests_in_every_scenario.

Lemma problem_cols e o X w f : s_fit e o X w f -> let n := S (length (mp_splits (sf_prebins f))) in
  length (pr_lens (sf_problem f)) = length (pr_cols (sf_problem f)) /\
  forall c, In c (pr_cols (sf_problem f)) -> length (fst c) = n /\ length (snd c) = n /\ pos_list (fst c) /\ pos_list (snd c).
Proof.
  intros F n. rewrite (ss_cols _ _ _ _ _ F), (ss_lens _ _ _ _ _ F). pose proof (ss_refined _ _ _ _ _ F) as R.
  pose proof (rs_cols _ _ _ R (ss_ne _ _ _ _ _ F)) as Ec. split; [rewrite Ec; unfold scen_cols; now rewrite !map_length|].
  intros c Hc. assert (NZ := fun v => rs_nz _ _ _ R c v Hc). rewrite Ec in Hc. destruct (scen_cols_len _ _ _ Hc) as [L1 L2].
  split; [exact L1|]. split; [exact L2|]. unfold scen_cols in Hc. apply in_map_iff in Hc. destruct Hc as (d & <- & Hd). cbn [fst snd] in *.
  apply in_map_iff in Hd. destruct Hd as (sc & <- & _).
  assert (P : forall b v, In v (counts 1 (digitize (mp_splits (sf_prebins f))) b (scen_data (se_sp e) sc) (S (length (mp_splits (sf_prebins f))))) -> 0 <= v).
  { intros b v Hv. unfold counts in Hv. apply in_map_iff in Hv. destruct Hv as (i & <- & _). apply bin_count_nonneg; [lia|].
    intros s Hs. apply clean_weights in Hs. apply repeat_spec in Hs. lia. }
  split; intros v Hv; pose proof (P _ v Hv); [pose proof (NZ v (or_introl Hv))|pose proof (NZ v (or_intror Hv))]; lia.
Qed.

(** Completeness: a grouping of the prebins that meets every request in every scenario is accepted by the posed problem. *)
Theorem C65_valid_binning_feasible : forall e o X w o' f M g gs, 0 < M ->
  sb_fit e o X w = (o', Some (Ok f)) ->
  let n := S (length (mp_splits (sf_prebins f))) in
  partition n gs -> s_request_met M (sf_problem f) g n gs ->
  exists Xm, describes n gs Xm /\ sc_feasible n M (sf_problem f) g Xm.
Proof.
  intros * HM Hf n Hp HR. apply sb_fit_inv in Hf. destruct (problem_cols _ _ _ _ _ Hf) as [L C].
  exists (mat_of gs). split; [apply mat_of_represents|].
  apply s_complete with (gs := gs); auto; [unfold n; lia|apply mat_of_represents].
Qed.
Print Assumptions C65_valid_binning_feasible.

(** The objective is the weighted sum over the scenarios of the divergence of their bins; so with an optimal answer no
    grouping that meets the requests in every scenario has a larger weighted total. *)
Theorem C65_optimal : forall e o X w o' f M g Xm phi, sb_env_ok e -> (forall s, In s X -> scen_valid s) -> 0 < M ->
  sb_fit e o X w = (o', Some (Ok f)) -> s_solved e f M g Xm ->
  let n := S (length (mp_splits (sf_prebins f))) in
  let pr := sf_problem f in
  let div := fun rows => zsum (map (phi (zsum (map fst rows), zsum (map snd rows))) rows) in
  let total := fun tabs => zsum (map2 (fun wt rows => wt * div rows) (pr_w pr) tabs) in
  sc_objective n phi pr Xm = total (map (bins_of f) (sf_tables f)) /\
  ((forall X', sc_feasible n M pr g X' -> sc_objective n phi pr X' <= sc_objective n phi pr Xm) ->
   forall gs, partition n gs -> s_request_met M pr g n gs ->
     total (map (fun c => rows_of (fst c) (snd c) gs) (pr_cols pr)) <= total (map (bins_of f) (sf_tables f))).
Proof.
  intros * K HV HM Hf HX n pr div total. pose proof (sb_fit_inv _ _ _ _ _ _ Hf) as F.
  destruct (s_groups _ _ _ _ _ _ _ _ K HV F HX) as (gs & Hp & Hr & Hlg & _ & Lc & Hcols & ET). cbv zeta in *. fold n pr in Hp, Hr, Hcols, ET.
  assert (E : sc_objective n phi pr Xm = total (map (bins_of f) (sf_tables f))).
  { rewrite ET. apply (sc_objective_rows n phi pr Xm gs); auto; [unfold n; lia|]. intros c Hc. destruct (Hcols c Hc) as (A & B & _). auto. }
  split; [exact E|]. intros Hopt gs' Hp' HR. rewrite <- E.
  eapply Z.le_trans; [|apply (Hopt (mat_of gs'))].
  - apply Z.eq_le_incl. symmetry. apply (sc_objective_rows n phi pr (mat_of gs') gs'); auto; [unfold n; lia|apply mat_of_represents|].
    intros c Hc. destruct (Hcols c Hc) as (A & B & _). auto.
  - destruct (problem_cols _ _ _ _ _ F) as [L C]. apply s_complete with (gs := gs'); auto; [unfold n; lia|apply mat_of_represents].
Qed.
Print Assumptions C65_optimal.

(** The weights in the objective are the scenario weights on a common positive scale, truncated to an integer: every scenario
    keeps a weight of at least 1, a larger weight never becomes smaller than a smaller one, and positive integer weights keep
    their proportions exactly. *)
Theorem C65_weights_partial : forall e o X v o' f, sb_fit e o X (Some v) = (o', Some (Ok f)) ->
  Forall (fun q => (0 < q)%Q) v /\ length (pr_w (sf_problem f)) = length X /\
  (exists sw, (0 < sw)%Q /\ Forall2 (fun q k => 1 <= k /\ (inject_Z k <= q * sw < inject_Z k + 1)%Q) v (pr_w (sf_problem f))) /\
  (forall s1 s2 q1 q2 k1 k2, nth_error v s1 = Some q1 -> nth_error v s2 = Some q2 ->
     nth_error (pr_w (sf_problem f)) s1 = Some k1 -> nth_error (pr_w (sf_problem f)) s2 = Some k2 -> (q1 <= q2)%Q -> k1 <= k2) /\
  (forall ks, v = map inject_Z ks -> exists c, 0 < c /\ pr_w (sf_problem f) = map (fun k => k * c) ks).
Proof.
  intros * Hf. apply sb_fit_inv in Hf. destruct (ss_w _ _ _ _ _ Hf) as [Lv Ew].
  destruct (int_weights_spec _ _ Ew) as (sw & Hsw & E & HF).
  split; [eapply Forall_impl; [|exact HF]; intros q [A _]; exact A|]. split; [rewrite E, map_length; exact Lv|]. split; [|split].
  - exists sw. split; [exact Hsw|]. rewrite E. clear -HF. induction HF as [|q v [H0 H1] HF IH]; cbn [map]; constructor; [|exact IH].
    split; [|split; [apply Qfloor_le|]].
    + apply Qfloor_resp_le in H1. exact H1.
    + pose proof (Qlt_floor (q * sw)) as G. rewrite inject_Z_plus in G. exact G.
  - intros s1 s2 q1 q2 k1 k2 H1 H2 K1 K2 Hq. rewrite E in K1, K2. rewrite nth_error_map in K1, K2. rewrite H1 in K1. rewrite H2 in K2.
    cbn [option_map] in K1, K2. replace k1 with (Qfloor (q1 * sw)) by congruence. replace k2 with (Qfloor (q2 * sw)) by congruence. apply Qfloor_resp_le. apply Qmult_le_compat_r; [exact Hq|now apply Qlt_le_weak].
  - intros ks ->. clear E HF sw Hsw. destruct ks as [|a ks]; [discriminate|]. cbn [map] in Ew. unfold int_weights in Ew.
    set (m := qmin (inject_Z a) (map inject_Z ks)) in *. destruct (Qle_bool m 0) eqn:Em; [discriminate|].
    assert (Ew' : map (fun v => Qfloor (v * weight_scale m)) (map inject_Z (a :: ks)) = pr_w (sf_problem f)) by exact (f_equal (fun r => match r with Some l => l | None => [] end) Ew). clear Ew. rename Ew' into Ew.
    assert (Hm : exists c, m = inject_Z c).
    { destruct (qmin_le (map inject_Z ks) (inject_Z a)) as (_ & _ & [H|H]); fold m in H; [eauto|]. apply in_map_iff in H. destruct H as (c & Hc & _). exists c. now symmetry. }
    destruct Hm as (c & Hc). assert (Hc0 : 0 < c).
    { destruct (Z_le_gt_dec c 0) as [H|H]; [|lia]. exfalso. assert (Qle_bool m 0 = true); [|congruence]. apply Qle_bool_iff. rewrite Hc. change 0%Q with (inject_Z 0). rewrite <- Zle_Qle. exact H. }
    exists c. split; [exact Hc0|]. rewrite <- Ew. unfold weight_scale.
    assert (E1 : Qle_bool 1 m = true) by (apply Qle_bool_iff; rewrite Hc; change 1%Q with (inject_Z 1); rewrite <- Zle_Qle; lia).
    rewrite E1, Hc, map_map.
    apply map_ext. intros k. rewrite <- inject_Z_mult. apply Qfloor_Z.
Qed.
Print Assumptions C65_weights_partial.
(** In general the proportions are lost: two scenarios with weights a <= b < 2a and a <= 1 (0.4 and 0.6, say) are treated as
    equally likely, so the optimised quantity is not the expected divergence. *)
Theorem C65_weights_truncated_refuted : forall a b, (0 < a)%Q -> (a <= 1)%Q -> (a <= b)%Q -> (b < 2 * a)%Q ->
  int_weights [a; b] = Some [1; 1].
Proof.
  intros a b H0 H1 Hab Hb. unfold int_weights. cbn [qmin].
  set (m := if Qle_bool b a then b else a).
  assert (Em : (m == a)%Q). { unfold m. destruct (Qle_bool b a) eqn:E; [|reflexivity]. apply Qle_bool_iff in E. now apply Qle_antisym. }
  assert (Hm0 : Qle_bool m 0 = false).
  { destruct (Qle_bool m 0) eqn:E; [|reflexivity]. apply Qle_bool_iff in E. rewrite Em in E. exfalso. apply (Qlt_not_le _ _ H0 E). }
  rewrite Hm0. cbn [map]. assert (Es : (weight_scale m == / a)%Q).
  { unfold weight_scale. destruct (Qle_bool 1 m) eqn:E; [|now rewrite Em]. apply Qle_bool_iff in E. rewrite Em in E.
    assert (Ea : (a == 1)%Q) by now apply Qle_antisym. rewrite Em, Ea. reflexivity. }
  assert (Na : ~ (a == 0)%Q) by (intros Z; rewrite Z in H0; discriminate).
  assert (F1 : Qfloor (a * weight_scale m) = 1) by (rewrite (Qfloor_comp _ 1%Q); [reflexivity|]; rewrite Es; apply Qmult_inv_r; exact Na).
  assert (Hi : (0 < / a)%Q) by now apply Qinv_lt_0_compat.
  assert (F2 : Qfloor (b * weight_scale m) = 1).
  { rewrite (Qfloor_comp _ (b * / a)%Q) by now rewrite Es.
    assert (L : (1 <= b * / a)%Q) by (rewrite <- (Qmult_inv_r a Na); apply Qmult_le_compat_r; [exact Hab|now apply Qlt_le_weak]).
    assert (U : (b * / a < 2)%Q).
    { setoid_replace 2%Q with (2 * a * / a)%Q; [apply Qmult_lt_r; assumption|]. rewrite <- Qmult_assoc, Qmult_inv_r by exact Na. reflexivity. }
    apply Qfloor_resp_le in L. change (Qfloor 1) with 1 in L.
    assert (V : Qfloor (b * / a) < 2); [|lia]. pose proof (Qfloor_le (b * / a)) as G.
    assert (G2 : (inject_Z (Qfloor (b * / a)) < inject_Z 2)%Q) by (eapply Qle_lt_trans; [exact G|exact U]). rewrite <- Zlt_Qlt in G2. exact G2. }
  now rewrite F1, F2.
Qed.
Print Assumptions C65_weights_truncated_refuted.
(** A scenario cannot be switched off with weight zero: fit raises (when there is anything to optimise). *)
Theorem C65_zero_weight_raises : forall e o X v, (exists q, In q v /\ (q <= 0)%Q) -> forall f, snd (sb_fit e o X (Some v)) <> Some (Ok f).
Proof.
  intros e o X v (q & Hq & Hq0) f H. destruct (sb_fit e o X (Some v)) as [o' r] eqn:E. cbn [snd] in H. subst r.
  destruct (C65_weights_partial _ _ _ _ _ _ E) as (HF & _). rewrite Forall_forall in HF. apply (Qlt_not_le _ _ (HF q Hq) Hq0).
Qed.
Print Assumptions C65_zero_weight_raises.

(** fit always ends: the refinement never loops. *)
Theorem C65_fit_terminates : forall e o X w, snd (sb_fit e o X w) <> None.
Proof.
  intros e o X w. unfold sb_fit. destruct (negb (sb_params_ok o)); [discriminate|].
  destruct (match w with Some v => _ | None => _ end); [discriminate|]. destruct X as [|s0 X']; [discriminate|].
  match goal with |- context [match ?p with Some _ => _ | None => _ end] => destruct p as [[splits0 fixed1]|] end; [|discriminate].
  match goal with |- context [compute_prebins_s ?a ?b ?c ?d ?e ?g] => pose proof (compute_prebins_s_terminates a b c d e g) as T; destruct (compute_prebins_s a b c d e g) as [[pb|x]|] end;
    [|discriminate|exfalso; apply T; [rewrite map_length; lia|reflexivity]].
  destruct (mp_splits pb); [discriminate|]. destruct (match w with Some v => _ | None => _ end); [|discriminate].
  destruct (all_some _); discriminate.
Qed.
Print Assumptions C65_fit_terminates.

(** When no split survives the pre-binning, a single bin would be the answer (as in OptimalBinning), but fit raises: the code
    indexes a one-dimensional empty array. *)
Theorem C65_no_split_crashes_refuted : forall e o s0 X w, sb_user o = None -> sb_fixed o = None ->
  (forall v, w = Some v -> length v = S (length X)) ->
  se_prebin e (concat (map (scen_data (se_sp e)) (s0 :: X))) = [] ->
  snd (sb_fit e o (s0 :: X) w) = Some (Err (match x_clean (scen_split (se_sp e) s0) with [] => ValueError | _ => IndexError end)).
Proof.
  intros e o s0 X w Hu Hfx Hw Hp. unfold sb_fit, sb_params_ok. rewrite Hfx, Hu. cbn [negb].
  assert (Ew : match w with Some v => negb (length v =? length (s0 :: X))%nat | None => false end = false).
  { destruct w as [v|]; [|reflexivity]. rewrite (Hw v eq_refl). cbn [length]. now rewrite Nat.eqb_refl. }
  rewrite Ew, Hp. reflexivity.
Qed.
Print Assumptions C65_no_split_crashes_refuted.

Lemma sort_by_key_length {A} (l : list (Z * A)) : length (sort_by_key l) = length l.
Proof.
  assert (I : forall (x : Z * A) l, length (insert_by_key x l) = S (length l)) by (intros x m; induction m as [|y m IH]; cbn; [reflexivity|destruct (fst x <=? fst y); cbn; [reflexivity|now rewrite IH]]).
  induction l as [|x l IH]; cbn; [reflexivity|]. fold (sort_by_key l). rewrite I. now rewrite IH.
Qed.
(** Fixed user splits, when the refinement removes nothing: every split marked as fixed, whatever the order in which the
    splits are given, is a split of the result. *)
Theorem C65_fixed_kept_partial : forall e u fx X w o' f M g Xm, sb_env_ok e -> (forall s, In s X -> scen_valid s) ->
  sb_fit e (sb_new (Some u) (Some fx)) X w = (o', Some (Ok f)) -> s_solved e f M g Xm ->
  length (mp_splits (sf_prebins f)) = length u ->
  forall s, In (s, true) (combine u fx) -> In (se_rnd e s) (sf_splits f).
Proof.
  intros * K HV Hf HX HL s Hin. pose proof (sb_fit_inv _ _ _ _ _ _ Hf) as F.
  assert (Ll : length u = length fx).
  { unfold sb_fit in Hf. destruct (sb_params_ok (sb_new (Some u) (Some fx))) eqn:E; [|discriminate]. cbn in E. apply Nat.eqb_eq in E. exact E. }
  destruct (s_groups _ _ _ _ _ _ _ _ K HV F HX) as (gs & Hp & Hr & Hlg & Hk & _). cbv zeta in *.
  set (n := S (length (mp_splits (sf_prebins f)))) in *. assert (Hn : (0 < n)%nat) by (unfold n; lia).
  destruct HX as [_ HF]. fold n in HF. destruct HF as (_ & _ & _ & _ & _ & _ & _ & _ & B9). pose proof (proj1 (fixed_iff _ _ _ Hn Hp Hr (pr_fixed (sf_problem f))) B9) as B10.
  pose proof (rs_sub _ _ _ (ss_refined _ _ _ _ _ F)) as Sb. unfold fit_splits0 in Sb. cbn [sb_new sb_user] in Sb.
  assert (Es : mp_splits (sf_prebins f) = map (se_rnd e) (sorted_splits u)).
  { apply subseq_length_eq; [exact Sb|]. rewrite map_length, HL. unfold sorted_splits. rewrite map_length.
    rewrite sort_by_key_length, map_length. reflexivity. }
  pose proof (ss_fixed _ _ _ _ _ F) as Ef. cbn [sb_new sb_user sb_fixed option_map snd] in Ef.
  apply (sort_key_In (combine u fx)) in Hin. rewrite <- (sorted_pairs u fx Ll) in Hin. apply In_nth_error in Hin. destruct Hin as (i & Hi).
  assert (Hi1 : nth_error (sorted_splits u) i = Some s /\ nth_error (permuted u fx) i = Some true).
  { clear -Hi. revert i Hi. generalize (sorted_splits u) (permuted u fx). induction l as [|a l IH]; intros [|b m] [|i] Hi; cbn in *; try discriminate; [injection Hi as -> ->; auto|auto]. }
  destruct Hi1 as [H1 H2].
  assert (Hi2 : nth_error (mp_splits (sf_prebins f)) i = Some (se_rnd e s)) by (rewrite Es; exact (map_nth_error (se_rnd e) i _ H1)).
  apply (Hk i (se_rnd e s) Hi2). apply (B10 (permuted u fx) i Ef); [|exact H2]. assert (i < length (mp_splits (sf_prebins f)))%nat by (apply nth_error_Some; congruence). unfold n. lia.
Qed.
Print Assumptions C65_fixed_kept_partial.

(** Otherwise a fixed split can be lost: the refinement shortens the list of splits and the private list of flags, but the
    optimiser is given the original flags, so the constraint is put on the wrong split. User splits 1, 2, 3 with 3 fixed:
    split 1 makes a pure prebin and is removed, and the answer [2] (feasible for the posed problem) drops the fixed 3. *)
Definition ex65_env (sol : list bool) : sb_env :=
  {| se_sp := SpNone; se_rnd := fun x => x; se_prebin := fun _ => []; se_solver := fun pr =>
       match pr_cols pr with c :: _ => if (length (fst c) =? length sol)%nat then sol else repeat true (length (fst c)) | [] => sol end |}.
Lemma ex65_env_ok sol : last sol false = true -> sb_env_ok (ex65_env sol).
Proof.
  intros Hl. constructor; cbn [ex65_env se_sp se_rnd se_prebin se_solver]; auto; [intros; constructor|].
  intros pr n Hn NE H. destruct (pr_cols pr) as [|c r]; [congruence|]. destruct (H c (or_introl eq_refl)) as [L _].
  destruct (length (fst c) =? length sol)%nat eqn:E; [apply Nat.eqb_eq in E; split; [lia|exact Hl]|].
  rewrite repeat_length. split; [exact L|]. rewrite L. clear -Hn. destruct n; [lia|]. clear Hn. induction n; [reflexivity|exact IHn].
Qed.
Definition ex65_g : sc_cfg := {| sg_trend := TNone; sg_min_bins := None; sg_max_bins := None; sg_min_size := None; sg_max_size := None;
  sg_pol := PVNone; sg_test := fun _ _ => false; sg_md := None |}.
Definition ex65_scen : scen := (map XNum [0; 1; 1; 2; 2; 3; 3], [Y0; Y0; Y1; Y0; Y1; Y0; Y1]).
Theorem C65_fixed_split_lost_refuted : exists e X f o' M Xm,
  sb_env_ok e /\ Forall scen_valid X /\ 0 < M /\
  sb_fit e (sb_new (Some [1; 2; 3]) (Some [false; false; true])) X None = (o', Some (Ok f)) /\
  s_solved e f M ex65_g Xm /\ sf_splits f = [2] /\ ~ In (se_rnd e 3) (sf_splits f).
Proof.
  set (e := ex65_env [true; false; true]). set (X := [ex65_scen; ex65_scen]).
  destruct (sb_fit e (sb_new (Some [1; 2; 3]) (Some [false; false; true])) X None) as [o' [[f|]|]] eqn:E;
    [|exfalso; vm_compute in E; discriminate E|exfalso; vm_compute in E; discriminate E].
  assert (Ef : sf_splits f = [2] /\ mp_splits (sf_prebins f) = [2; 3] /\ sf_problem f =
     {| pr_cols := [([2; 1; 1], [1; 1; 1]); ([2; 1; 1], [1; 1; 1])]; pr_lens := [7; 7]; pr_w := [1; 1]; pr_fixed := Some [false; false; true] |})
    by (vm_compute in E; injection E as <- <-; repeat split; reflexivity).
  destruct Ef as (E1 & E2 & E3).
  exists e, X, f, o', 1000, (mat_of [(0, 0); (1, 2)]%nat). split; [now apply ex65_env_ok|].
  split; [repeat constructor; cbn; intuition discriminate|]. split; [lia|]. split; [exact E|].
  split; [|split; [exact E1|rewrite E1; cbn; intuition discriminate]].
  unfold s_solved. rewrite E2, E3. cbv zeta. split; [reflexivity|]. cbn [length].
  apply s_complete with (gs := [(0, 0); (1, 2)]%nat).
  1,2: lia.
  2: reflexivity.
  3: apply (mat_of_represents 3).
  2: repeat constructor.
  - intros c Hc. cbn in Hc. destruct Hc as [<- | [<- | []]]; cbn; repeat split; try reflexivity; intros v Hv; cbn in Hv; intuition lia.
  - constructor; cbn; try exact I; try discriminate.
    + split; discriminate.
    + intros s len c _ _. apply Forall_forall. intros r _. split; discriminate.
    + repeat constructor.
    + intros f0 i Hf Hi. injection Hf as <-. destruct i as [|[|i]]; cbn; try discriminate. lia.
Qed.
Print Assumptions C65_fixed_split_lost_refuted.

(** The private flags are in the order given by the user, the splits are sorted: with user splits 5, 1, where 1 is fixed and
    makes a pure prebin, the fixed split is dropped without the documented error. *)
Theorem C65_unsorted_fixed_refuted : exists e X f o' M Xm,
  sb_env_ok e /\ Forall scen_valid X /\ 0 < M /\
  sb_fit e (sb_new (Some [5; 1]) (Some [false; true])) X None = (o', Some (Ok f)) /\
  s_solved e f M ex65_g Xm /\ sf_splits f = [5] /\
  snd (sb_fit e (sb_new (Some [1; 5]) (Some [true; false])) X None) = Some (Err ValueError).
Proof.
  set (e := ex65_env [true; true]). set (X := [(map XNum [0; 1; 1; 5; 5], [Y0; Y0; Y1; Y0; Y1]) : scen]).
  destruct (sb_fit e (sb_new (Some [5; 1]) (Some [false; true])) X None) as [o' [[f|]|]] eqn:E;
    [|exfalso; vm_compute in E; discriminate E|exfalso; vm_compute in E; discriminate E].
  assert (Ef : sf_splits f = [5] /\ mp_splits (sf_prebins f) = [5] /\ sf_problem f =
     {| pr_cols := [([2; 1], [1; 1])]; pr_lens := [5]; pr_w := [1]; pr_fixed := Some [true; false] |})
    by (vm_compute in E; injection E as <- <-; repeat split; reflexivity).
  destruct Ef as (E1 & E2 & E3).
  exists e, X, f, o', 1000, (mat_of [(0, 0); (1, 1)]%nat). split; [now apply ex65_env_ok|].
  split; [repeat constructor; cbn; intuition discriminate|]. split; [lia|]. split; [exact E|].
  split; [|split; [exact E1|vm_compute; reflexivity]].
  unfold s_solved. rewrite E2, E3. cbv zeta. split; [reflexivity|]. cbn [length].
  apply s_complete with (gs := [(0, 0); (1, 1)]%nat).
  1,2: lia.
  2: reflexivity.
  3: apply (mat_of_represents 2).
  2: repeat constructor.
  - intros c Hc. cbn in Hc. destruct Hc as [<- | []]; cbn; repeat split; try reflexivity; intros v Hv; cbn in Hv; intuition lia.
  - constructor; cbn; try exact I; try discriminate.
    + split; discriminate.
    + intros s len c _ _. apply Forall_forall. intros r _. split; discriminate.
    + repeat constructor.
    + intros f0 i Hf Hi. injection Hf as <-. destruct i as [|i]; [eauto|lia].
Qed.
Print Assumptions C65_unsorted_fixed_refuted.

(** fit is not repeatable: with fixed user splits, a second fit on the same object raises whatever the data. *)
Theorem C65_refit_fixed_refuted : forall e u fx X w o' f X2 w2, fx <> [] ->
  sb_fit e (sb_new (Some u) (Some fx)) X w = (o', Some (Ok f)) ->
  sb_fit e o' X2 w2 = (o', Some (Err ValueError)).
Proof.
  intros e u fx X w o' f X2 w2 Hne Hf.
  assert (Hfx : sb_fixed o' = Some (true, permuted u fx) /\ sb_user o' = Some u /\ length u = length fx).
  { revert Hf. unfold sb_fit. destruct (sb_params_ok (sb_new (Some u) (Some fx))) eqn:Ep; [|discriminate]. cbn [negb].
    assert (Ll : length u = length fx) by (cbn in Ep; now apply Nat.eqb_eq in Ep).
    destruct (match w with Some v => _ | None => _ end); [discriminate|]. destruct X as [|s0 X']; [discriminate|].
    cbn [sb_new sb_user sb_fixed sb_user_p sb_fixed_p option_map snd].
    destruct ((length u =? 0)%nat || negb (distinct u)); [discriminate|].
    destruct (compute_prebins_s _ _ _ _ _ _) as [[pb|x]|]; try discriminate.
    destruct (mp_splits pb); [discriminate|]. destruct (match w with Some v => _ | None => _ end); [|discriminate].
    destruct (all_some _); [|discriminate]. intros H. injection H as <- <-. auto. }
  destruct Hfx as (H1 & H2 & H3). unfold sb_fit, sb_params_ok. rewrite H1, H2.
  assert (L : (length (permuted u fx) =? 0)%nat = false).
  { apply Nat.eqb_neq. unfold permuted. rewrite map_length, sort_by_key_length, combine_length, H3, Nat.min_id.
    destruct fx; [congruence|discriminate]. }
  rewrite L. reflexivity.
Qed.
Print Assumptions C65_refit_fixed_refuted.

(** A peak must turn at the same bin in every scenario: two scenarios each of which is a (degenerate) peak on its own, one
    falling and one rising, do not admit the three-bin solution. *)
Theorem C65_peak_shared_change_refuted : exists cols M,
  Forall (fun c => length (fst c) = 3%nat /\ length (snd c) = 3%nat /\
                   up_down rate_le (rows_of (fst c) (snd c) [(0, 0); (1, 1); (2, 2)]%nat)) cols /\ 0 < M /\
  forall Xm, describes 3 [(0, 0); (1, 1); (2, 2)]%nat Xm -> ~ sc_trend 3 M cols TPeak Xm.
Proof.
  exists [([1; 2; 3], [3; 2; 1]); ([3; 2; 1], [1; 2; 3])], 1000. split; [|split; [lia|]].
  - constructor; [|constructor; [|constructor]]; (split; [reflexivity|split; [reflexivity|]]).
    + exists [], [(1, 3); (2, 2); (3, 1)]. split; [reflexivity|]. split; [constructor|]. repeat constructor; discriminate.
    + exists [(3, 1); (2, 2); (1, 3)], []. split; [reflexivity|]. split; [|constructor]. repeat constructor; discriminate.
  - intros Xm Hr (y & p & Hcp & HB). assert (Hp : partition 3 [(0, 0); (1, 1); (2, 2)]%nat) by repeat constructor.
    destruct (peak_bends 3 _ Xm 1000 ltac:(lia) Hp Hr y p Hcp) as (k & Hk).
    inversion HB as [|? ? HA HB1]; subst. inversion HB1 as [|? ? HB2 _]; subst. cbn [fst snd] in *.
    apply Hk in HA; [|change 3%nat with (length [1; 2; 3]); apply rate_mat_bounded; try reflexivity; try lia; intros v Hv; cbn in Hv; intuition lia].
    apply Hk in HB2; [|change 3%nat with (length [3; 2; 1]); apply rate_mat_bounded; try reflexivity; try lia; intros v Hv; cbn in Hv; intuition lia].
    destruct HA as [HA _], HB2 as [_ HB2]. destruct k as [|[|k]].
    + cbn [skipn] in HB2. inversion HB2 as [|? ? G _]; subst. inversion G as [|? ? G1 _]; subst. vm_compute in G1. apply G1. reflexivity.
    + cbn [skipn] in HB2. inversion HB2 as [|? ? G _]; subst. inversion G as [|? ? G1 _]; subst. vm_compute in G1. apply G1. reflexivity.
    + cbn [firstn] in HA. inversion HA as [|? ? G _]; subst. inversion G as [|? ? G1 _]; subst. vm_compute in G1. apply G1. reflexivity.
Qed.
Print Assumptions C65_peak_shared_change_refuted.

(** A run that meets the hypotheses: two different scenarios with different weights, three prebins, an optimised answer with
    two bins under an ascending trend and a minimum bin size of 20 % in every scenario. *)
Definition ex65_a : scen := (map XNum [0; 0; 0; 1; 1; 2; 2; 2], [Y0; Y0; Y1; Y0; Y1; Y0; Y1; Y1]).
Definition ex65_b : scen := (map XNum [0; 0; 0; 0; 1; 1; 2; 2], [Y0; Y0; Y0; Y1; Y0; Y1; Y0; Y1]) .
Definition ex65_env2 : sb_env := {| se_sp := SpNone; se_rnd := fun x => x; se_prebin := fun _ => [1; 2]; se_solver := se_solver (ex65_env [true; false; true]) |}.
Definition ex65_g2 : sc_cfg := {| sg_trend := TAscending; sg_min_bins := Some 2; sg_max_bins := None; sg_min_size := Some (1 # 5)%Q; sg_max_size := None;
  sg_pol := PVNone; sg_test := fun _ _ => false; sg_md := None |}.
Example C65_hyps_met : exists f o' Xm, sb_env_ok ex65_env2 /\ Forall scen_valid [ex65_a; ex65_b] /\
  sb_fit ex65_env2 (sb_new None None) [ex65_a; ex65_b] (Some [1 # 4; 3 # 4]%Q) = (o', Some (Ok f)) /\
  s_solved ex65_env2 f 1000 ex65_g2 Xm /\ pr_w (sf_problem f) = [1; 3] /\
  sf_tables f = [([2; 2; 0; 0], [1; 3; 0; 0]); ([3; 2; 0; 0], [1; 2; 0; 0])] /\
  partition 3 [(0, 0); (1, 2)]%nat /\ s_request_met 1000 (sf_problem f) ex65_g2 3 [(0, 0); (1, 2)]%nat.
Proof.
  destruct (sb_fit ex65_env2 (sb_new None None) [ex65_a; ex65_b] (Some [1 # 4; 3 # 4]%Q)) as [o' [[f|]|]] eqn:E;
    [|exfalso; vm_compute in E; discriminate E|exfalso; vm_compute in E; discriminate E].
  assert (Ef : sf_tables f = [([2; 2; 0; 0], [1; 3; 0; 0]); ([3; 2; 0; 0], [1; 2; 0; 0])] /\ mp_splits (sf_prebins f) = [1; 2] /\ sf_problem f =
     {| pr_cols := [([2; 1; 1], [1; 1; 2]); ([3; 1; 1], [1; 1; 1])]; pr_lens := [8; 8]; pr_w := [1; 3]; pr_fixed := None |})
    by (vm_compute in E; injection E as <- <-; repeat split; reflexivity).
  destruct Ef as (E1 & E2 & E3).
  assert (HR : s_request_met 1000 (sf_problem f) ex65_g2 3 [(0, 0); (1, 2)]%nat).
  { rewrite E3. constructor; cbn [pr_cols pr_lens pr_fixed map]; try discriminate.
    - split; intros a Ha; [injection Ha as <-; cbn; lia|discriminate].
    - constructor; [|constructor; [|constructor]]; repeat constructor; discriminate.
    - intros [|[|s]] len c Hl Hc; cbn in Hl, Hc; [| |destruct s; discriminate]; injection Hl as <-; injection Hc as <-;
        repeat constructor; try discriminate; intros q Hq; injection Hq as <-; discriminate.
    - constructor; [|constructor; [|constructor]]; repeat constructor. }
  exists f, o', (mat_of [(0, 0); (1, 2)]%nat). split.
  { pose proof (ex65_env_ok [true; false; true] eq_refl) as [A B C D S]. constructor; auto. cbn. intros _. repeat constructor; lia. }
  split; [repeat constructor; cbn; intuition discriminate|]. split; [reflexivity|].
  split; [|split; [rewrite E3; reflexivity|split; [exact E1|split; [repeat constructor|exact HR]]]].
  unfold s_solved. rewrite E2. cbv zeta. split; [rewrite E3; reflexivity|]. cbn [length].
  apply s_complete with (gs := [(0, 0); (1, 2)]%nat).
  1,2: lia.
  2: rewrite E3; reflexivity.
  3: apply (mat_of_represents 3).
  2: repeat constructor.
  2: exact HR.
  rewrite E3. intros c Hc. cbn in Hc. destruct Hc as [<- | [<- | []]]; cbn; repeat split; try reflexivity; intros v Hv; cbn in Hv; intuition lia.
Qed.
