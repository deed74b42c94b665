(** The objectives are integers, truncated multiples of the divergences (C08, C29, C46, C61, C65): how far can the answer of an optimal
    solver be from the best divergence? The CP-SAT solver is trusted to return an optimal assignment of the posted model. *)
From Coq Require Import List ZArith Bool Arith Lia Sorting Reals Lra Permutation QArith.
From Verif Require Import Model.Arr Model.Core Model.CP Model.Multi Model.Metrics Model.MIP Model.Scaled Model.TwoD Model.Scenario
  Spec.CoreSpec Spec.CPSpec Spec.CPFitSpec Spec.MultiSpec Spec.TwoDSpec Spec.ScenarioSpec Spec.ScaledSpec
  Proofs.ArrP Proofs.CoreP Proofs.CPP Proofs.CPC Proofs.MultiP Proofs.MultiFinal Proofs.ScenP Proofs.ScenQ Proofs.ScenR Proofs.ScaledP Proofs.MetricsP
  Props.CPProps Props.MultiProps Props.TwoDProps Props.ScenarioProps Model.TwoDCart Spec.TwoDCartSpec Props.TwoDCartProps.
Import ListNotations.
Open Scope Z_scope.

(** Binary target: no grouping of the prebins meeting the request has a divergence larger than that of the table by more than the
    number of bins involved divided by M (10^6). *)
Theorem C08_optimal_divergence : forall wu d solver sp fixed user splits0 xs ys sw f M g X pol test md,
  0 < wu -> (forall w, In w sw -> 0 <= w) -> d = IV \/ d = JS -> 0 < M ->
  fit_numerical wu d solver sp fixed user splits0 xs ys sw = Some (Ok f) -> solved f solver M g X ->
  let ne := pb_nev (f_prebins f) in let ev := pb_ev (f_prebins f) in
  let tot := (zsum ne, zsum ev) in
  let V := div_mat (scaled_div M d tot) ne ev in
  let divergence rows := rsum (map (bin_divergence d tot) rows) in
  (forall X', feasible (length ne) (rate_mat M ne ev) M (at0 ne) (at0 ev) g X' -> objective (length ne) V X' <= objective (length ne) V X) ->
  g_md0 g = false -> g_pviol g = pviol_of pol test ne ev -> g_dviol g = dviol_of md M ne ev ->
  forall gs', partition (length ne) gs' -> spec_ok ne ev gs' M g pol test md ->
  (divergence (rows_of ne ev gs') <= divergence (clean_rows f) + INR (length gs' + length (clean_rows f)) / IZR M)%R.
Proof.
  intros * Hw Hsw Hd HM Hf Hsol ne ev tot V dv Hopt Hmd Epv Edv gs' Hp' Hok.
  pose proof (C08_optimal_among_requests _ _ _ _ _ _ _ _ _ _ _ _ _ _ _ _ _ _ Hw Hsw Hd HM Hf Hsol Hopt Hmd Epv Edv gs' Hp' Hok) as H.
  unfold dv. replace (length gs') with (length (rows_of ne ev gs')) by (unfold rows_of; now rewrite map_length). exact (trunc_sum_le _ _ M (fun _ => scaled_spec M d _ _) _ _ HM H).
Qed.
Print Assumptions C08_optimal_divergence.

(** Multiclass: no grouping in which every class meets its request has a larger sum of the classes' divergence terms. *)
Theorem C29_optimal : forall solver sp fixed user splits0 rs f M g X phi,
  nondecreasing splits0 -> m_solver_ok solver -> 0 < M ->
  fit_multi solver sp fixed user splits0 rs = Some (Ok f) -> m_solved f solver M g X ->
  let n := S (length (mp_splits (mf_prebins f))) in let cols := mp_cols (mf_prebins f) in
  let total := fun tabs => zsum (map (fun rows => zsum (map (phi (zsum (map fst rows), zsum (map snd rows))) rows)) tabs) in
  (forall X', m_feasible n M cols g X' -> m_objective n phi cols X' <= m_objective n phi cols X) ->
  (mg_md g = None -> Forall (fun t => t <> TAscending /\ t <> TDescending) (mg_trends g)) ->
  forall gs, partition n gs ->
  within (mg_min_bins g) (mg_max_bins g) (Z.of_nat (length gs)) ->
  (forall fx i, mg_fixed g = Some fx -> (i < n - 1)%nat -> nth_error fx i = Some true -> exists s, In (s, i) gs) ->
  Forall2 (fun t c => trend_met t (rows_of (fst c) (snd c) gs) /\
     pvalue_ok (mg_pol g) (mg_test g) (rows_of (fst c) (snd c) gs) /\
     (forall k, mg_md g = Some k -> neighbours (apart M k) (rows_of (fst c) (snd c) gs))) (mg_trends g) cols ->
  total (map (fun c => rows_of (fst c) (snd c) gs) cols) <= total (map (class_rows f) (seq 0 (length (mf_classes f)))).
Proof.
  intros * Hs Hok HM Hf HX n cols total Hopt Hmd gs Hp Hb Hfx HF.
  pose proof (C29_objective _ _ _ _ _ _ _ _ _ _ phi Hs Hok Hf HX) as EO.
  destruct (multi_groups _ _ _ _ _ _ _ _ _ _ Hs Hok Hf HX) as (gs0 & HG). cbv zeta in HG. destruct HG as (Hp0 & Hr0 & _ & _ & Hcls). change (S (length (mp_splits (mf_prebins f)))) with n in EO, Hcls. change (mp_cols (mf_prebins f)) with cols in EO, Hcls.
  assert (HC : forall c, In c cols -> length (fst c) = n /\ length (snd c) = n /\ (forall a, In a (fst c) -> 0 < a) /\ (forall a, In a (snd c) -> 0 < a)).
  { intros c Hc. apply In_nth_error in Hc as (i & Hi). destruct (C29_trend_per_class _ _ _ _ _ _ _ _ _ _ Hs Hok HM Hf HX) as (_ & HL & _).
    assert (i < length (mf_classes f))%nat. { rewrite <- HL. rewrite (Forall2_len _ _ _ HF). apply nth_error_Some. congruence. }
    destruct (nth_error (mf_classes f) i) as [cl|] eqn:Ec; [|apply nth_error_None in Ec; lia].
    destruct (Hcls i cl Ec) as (ne & ev & E & A1 & A2 & A3 & A4 & _). rewrite Hi in E. injection E as ->. auto. }
  destruct (C29_valid_binning_feasible n M cols g gs ltac:(unfold n; lia) HM HC Hp Hmd Hb Hfx HF) as (X' & Hr' & HF').
  specialize (Hopt X' HF'). rewrite EO in Hopt. unfold total at 2. rewrite map_map. eapply Z.le_trans; [|exact Hopt].
  apply Z.eq_le_incl. unfold total, m_objective. rewrite map_map. apply zsum_map_ext. intros c Hc. destruct (HC c Hc) as (L1 & L2 & _).
  rewrite (objective_rows n phi c X' gs) by (assumption || (unfold n; lia)). reflexivity.
Qed.
Print Assumptions C29_optimal.

(** a lemma on sums of tables: truncated totals against real ones *)
Lemma tables_trunc_le (d : divergence) M (tabs tabs' : list (list (Z * Z))) : 0 < M ->
  let tot := fun rows : list (Z * Z) => (zsum (map fst rows), zsum (map snd rows)) in
  zsum (map (fun rows => zsum (map (scaled_div M d (tot rows)) rows)) tabs) <= zsum (map (fun rows => zsum (map (scaled_div M d (tot rows)) rows)) tabs') ->
  (rsum (map (fun rows => rsum (map (bin_divergence d (tot rows)) rows)) tabs) <=
   rsum (map (fun rows => rsum (map (bin_divergence d (tot rows)) rows)) tabs') + INR (length (concat tabs) + length (concat tabs')) / IZR M)%R.
Proof.
  intros HM tot H.
  set (rowsT := fun ts : list (list (Z * Z)) => flat_map (fun rows => map (fun r => (tot rows, r)) rows) ts).
  set (F := fun x : (Z * Z) * (Z * Z) => bin_divergence d (fst x) (snd x)).
  assert (EZ : forall ts, zsum (map (fun rows => zsum (map (scaled_div M d (tot rows)) rows)) ts) = zsum (map (fun x => scaled_div M d (fst x) (snd x)) (rowsT ts))).
  { induction ts as [|t ts IH]; [reflexivity|]. cbn [map zsum rowsT flat_map]. fold (rowsT ts). rewrite map_app, zsum_app, IH, map_map. reflexivity. }
  assert (ER : forall ts, rsum (map (fun rows => rsum (map (bin_divergence d (tot rows)) rows)) ts) = rsum (map F (rowsT ts))).
  { induction ts as [|t ts IH]; [reflexivity|]. cbn [map rsum rowsT flat_map]. fold (rowsT ts). rewrite map_app, rsum_app, IH, map_map. reflexivity. }
  assert (EL : forall ts, length (concat ts) = length (rowsT ts)).
  { induction ts as [|t ts IH]; [reflexivity|]. cbn [concat rowsT flat_map]. fold (rowsT ts). now rewrite !app_length, map_length, IH. }
  rewrite !EZ in H. rewrite !ER, !EL. exact (trunc_sum_le F (fun x => scaled_div M d (fst x) (snd x)) M (fun x => scaled_spec M d _ _) _ _ HM H).
Qed.

(** ... and no such grouping has a total information value larger than that of the tables by more than (bins of all classes)/M. *)
Theorem C29_optimal_divergence : forall solver sp fixed user splits0 rs f M g X,
  nondecreasing splits0 -> m_solver_ok solver -> 0 < M ->
  fit_multi solver sp fixed user splits0 rs = Some (Ok f) -> m_solved f solver M g X ->
  let n := S (length (mp_splits (mf_prebins f))) in let cols := mp_cols (mf_prebins f) in
  let iv := fun rows => rsum (map (bin_divergence IV (zsum (map fst rows), zsum (map snd rows))) rows) in
  (forall X', m_feasible n M cols g X' -> m_objective n (scaled_div M IV) cols X' <= m_objective n (scaled_div M IV) cols X) ->
  (mg_md g = None -> Forall (fun t => t <> TAscending /\ t <> TDescending) (mg_trends g)) ->
  forall gs, partition n gs ->
  within (mg_min_bins g) (mg_max_bins g) (Z.of_nat (length gs)) ->
  (forall fx i, mg_fixed g = Some fx -> (i < n - 1)%nat -> nth_error fx i = Some true -> exists s, In (s, i) gs) ->
  Forall2 (fun t c => trend_met t (rows_of (fst c) (snd c) gs) /\
     pvalue_ok (mg_pol g) (mg_test g) (rows_of (fst c) (snd c) gs) /\
     (forall k, mg_md g = Some k -> neighbours (apart M k) (rows_of (fst c) (snd c) gs))) (mg_trends g) cols ->
  let mine := map (class_rows f) (seq 0 (length (mf_classes f))) in
  let other := map (fun c => rows_of (fst c) (snd c) gs) cols in
  (rsum (map iv other) <= rsum (map iv mine) + INR (length (concat other) + length (concat mine)) / IZR M)%R.
Proof.
  intros * Hs Hok HM Hf HX n cols iv Hopt Hmd gs Hp Hb Hfx HF mine other.
  pose proof (C29_optimal _ _ _ _ _ _ _ _ _ _ _ Hs Hok HM Hf HX Hopt Hmd gs Hp Hb Hfx HF) as H. cbv zeta in H. now apply (tables_trunc_le IV M other mine HM).
Qed.
Print Assumptions C29_optimal_divergence.

(** Two dimensions, strategy "grid", binary target. *)
Theorem C46_optimal_divergence : forall m n c d M fe fne ok sol ts, (0 < n)%nat -> 0 < M -> gamma2 c = false ->
  let rs := rects_of m n ok in let rd := grid_rdata m n ok in
  let feasible := feasible2 m n c rd (rates_of fe fne (rd_rows rd)) (records_of fe fne (rd_rows rd)) in
  let counts := fun r => (cell_sum fne (cells n r), cell_sum fe (cells n r)) in
  let w := fun r => scaled_div M d (zsum fne, zsum fe) (counts r) in
  let divergence := fun l => rsum (map (fun r => bin_divergence d (zsum fne, zsum fe) (counts r)) l) in
  feasible sol -> (forall sol', feasible sol' -> (objective2 (map w rs) sol' <= objective2 (map w rs) sol)%Z) ->
  valid_tiling m n c (fun r => ok (cells n r) = true) (fun r => TwoD.rate (cell_sum fe (cells n r)) (cell_sum fne (cells n r))) ts ->
  (divergence ts <= divergence (select sol rs) + INR (length ts + length (select sol rs)) / IZR M)%R.
Proof.
  intros m n c d M fe fne ok sol ts Hn HM Hg rs rd feasible counts w dv Hf Hopt Hts.
  pose proof (C46_optimal m n c fe fne ok w sol ts Hn Hg Hf Hopt Hts) as H. fold rs in H. exact (trunc_sum_le _ _ M (fun _ => scaled_spec M d _ _) _ _ HM H).
Qed.
Print Assumptions C46_optimal_divergence.

Lemma wsum_close (d : divergence) M K : forall (w : list Z) (tabs : list (list (Z * Z))), (forall x, In x w -> 0 <= x) -> (forall t, In t tabs -> (length t <= K)%nat) ->
  let tot := fun rows : list (Z * Z) => (zsum (map fst rows), zsum (map snd rows)) in
  (Rabs (rsum (map2 (fun wt rows => IZR wt * rsum (map (bin_divergence d (tot rows)) rows)) w tabs) * IZR M -
         IZR (zsum (map2 (fun wt rows => (wt * zsum (map (scaled_div M d (tot rows)) rows))%Z) w tabs))) <= IZR (zsum w) * INR K)%R.
Proof.
  intros w tabs Hw Ht tot. revert tabs Hw Ht. induction w as [|a w IH]; intros [|t tabs] Hw Ht; cbn [map2 rsum zsum].
  - rewrite Rmult_0_l, Rminus_0_r, Rabs_R0. lra.
  - rewrite Rmult_0_l, Rminus_0_r, Rabs_R0. lra.
  - rewrite Rmult_0_l, Rminus_0_r, Rabs_R0. apply Rmult_le_pos; [|apply pos_INR]. apply IZR_le.
    assert (0 <= a) by (apply Hw; now left). assert (0 <= zsum w); [|lia].
    assert (G : forall x, In x w -> 0 <= x) by (intros; apply Hw; now right). clear -G. induction w as [|b w IH]; [cbn; lia|]. cbn [zsum]. specialize (G b (or_introl eq_refl)) as Gb.
    assert (0 <= zsum w) by (apply IH; intros; apply G; now right). lia.
  - specialize (IH tabs ltac:(intros; apply Hw; now right) ltac:(intros; apply Ht; now right)).
    assert (Ha : 0 <= a) by (apply Hw; now left). apply IZR_le in Ha. specialize (Ht t (or_introl eq_refl)). apply le_INR in Ht.
    pose proof (trunc_sum (bin_divergence d (tot t)) _ M (scaled_spec M d (tot t)) t) as T.
    rewrite !plus_IZR, mult_IZR.
    match type of T with (Rabs (?s * _ - ?z) <= _)%R => set (S0 := s) in *; set (Z0 := z) in * end.
    match type of IH with (Rabs (?s * _ - ?z) <= _)%R => set (S1 := s) in *; set (Z1 := z) in * end.
    replace ((IZR a * S0 + S1) * IZR M - (IZR a * Z0 + Z1))%R with (IZR a * (S0 * IZR M - Z0) + (S1 * IZR M - Z1))%R by ring.
    eapply Rle_trans; [apply Rabs_triang|]. rewrite Rabs_mult, (Rabs_right (IZR a)) by lra.
    assert (IZR a * Rabs (S0 * IZR M - Z0) <= IZR a * INR K)%R by (apply Rmult_le_compat_l; lra). lra.
Qed.

(** Scenarios: weighted with the integer weights of the model (C65_weights_partial). *)
Theorem C65_optimal_divergence : forall e o X w o' f M g Xm, sb_env_ok e -> (forall s, In s X -> scen_valid s) -> 0 < M ->
  sb_fit e o X w = (o', Some (Ok f)) -> s_solved e f M g Xm ->
  let n := S (length (mp_splits (sf_prebins f))) in
  let pr := sf_problem f in
  let iv := fun rows => rsum (map (bin_divergence IV (zsum (map fst rows), zsum (map snd rows))) rows) in
  let total := fun tabs => rsum (map2 (fun wt rows => IZR wt * iv rows)%R (pr_w pr) tabs) in
  (forall X', sc_feasible n M pr g X' -> sc_objective n (scaled_div M IV) pr X' <= sc_objective n (scaled_div M IV) pr Xm) ->
  forall gs, partition n gs -> s_request_met M pr g n gs ->
    (total (map (fun c => rows_of (fst c) (snd c) gs) (pr_cols pr)) <=
     total (map (bins_of f) (sf_tables f)) + IZR (zsum (pr_w pr)) * INR (length gs + S (length (sf_splits f))) / IZR M)%R.
Proof.
  intros * K HV HM Hf HX n pr iv total Hopt gs Hp HR.
  destruct (C65_optimal _ _ _ _ _ _ _ _ _ (scaled_div M IV) K HV HM Hf HX) as [_ H]. specialize (H Hopt gs Hp HR). cbv zeta in H. fold pr in H.

  assert (HW : forall x, In x (pr_w pr) -> 0 <= x).
  { intros x Hx. pose proof (sb_fit_inv _ _ _ _ _ _ Hf) as F. destruct w as [v|].
    - destruct (C65_weights_partial _ _ _ _ _ _ Hf) as (_ & _ & (swt & _ & F2) & _). fold pr in F2. clear -F2 Hx. induction F2 as [|q k a b Hk F2 IH]; [destruct Hx|]. destruct Hx as [<-|Hx]; [lia|auto].
    - pose proof (ss_w _ _ _ _ _ F) as E. cbv iota beta in E. fold pr in E. rewrite E in Hx. apply repeat_spec in Hx. lia. }
  pose proof (wsum_close IV M (length gs) (pr_w pr) (map (fun c => rows_of (fst c) (snd c) gs) (pr_cols pr)) HW) as A1.
  pose proof (wsum_close IV M (S (length (sf_splits f))) (pr_w pr) (map (bins_of f) (sf_tables f)) HW) as A2. cbv zeta in A1, A2.
  specialize (A1 ltac:(intros t Ht; apply in_map_iff in Ht; destruct Ht as (c & <- & _); unfold rows_of; rewrite map_length; lia)).
  specialize (A2 ltac:(intros t Ht; apply in_map_iff in Ht; destruct Ht as (c & <- & _); unfold bins_of; rewrite firstn_length; lia)).
  apply IZR_le in H. unfold total, iv. apply IZR_lt in HM. rewrite plus_INR.
  match type of A1 with (Rabs (?s * _ - ?z) <= _)%R => set (S0 := s) in *; set (Z0 := z) in * end.
  match type of A2 with (Rabs (?s * _ - ?z) <= _)%R => set (S1 := s) in *; set (Z1 := z) in * end.
  assert (Q : (S0 * IZR M <= S1 * IZR M + IZR (zsum (pr_w pr)) * (INR (length gs) + INR (S (length (sf_splits f)))))%R).
  { revert A1 A2. unfold Rabs. destruct (Rcase_abs _), (Rcase_abs _); intros; lra. }
  apply (Rmult_le_reg_r (IZR M)); [exact HM|]. rewrite Rmult_plus_distr_r. unfold Rdiv. rewrite !Rmult_assoc, Rinv_l by lra. lra.
Qed.
Print Assumptions C65_optimal_divergence.

(** Two dimensions, strategy "cart". *)
Theorem C61_optimal_divergence : forall m n t A0 ok c d M fe fne sol ts, (0 < n)%nat -> 0 < M -> length A0 = (m * n)%nat -> gamma2 c = false ->
  let rd := cart_rdata m n t A0 ok in
  let rate_of := fun r => TwoD.rate (cell_sum fe (cells n r)) (cell_sum fne (cells n r)) in
  let feasible := feasible2 m n c rd (rates_of fe fne (rd_rows rd)) (records_of fe fne (rd_rows rd)) in
  let w := fun row => scaled_div M d (zsum fne, zsum fe) (cell_sum fne row, cell_sum fe row) in
  let divergence := fun l => rsum (map (fun r => bin_divergence d (zsum fne, zsum fe) (cell_sum fne (cells n r), cell_sum fe (cells n r))) l) in
  feasible sol -> (forall sol', feasible sol' -> (objective2 (map w (rd_rows rd)) sol' <= objective2 (map w (rd_rows rd)) sol)%Z) ->
  exists best, select sol (rd_rows rd) = map (cells n) best /\ valid_cart m n c rate_of best /\
    (valid_cart m n c rate_of ts -> (forall r, In r ts -> candidate m n t ok r) ->
     (divergence ts <= divergence best + INR (length ts + length best) / IZR M)%R).
Proof.
  intros m n t A0 ok c d M fe fne sol ts Hn HM HA Hg rd rate_of feasible w dv Hf Hopt.
  destruct (C61_optimal m n t A0 ok c fe fne w sol ts Hn HA Hg Hf Hopt) as (best & E & HV & _ & H). exists best. split; [exact E|]. split; [exact HV|].
  intros Hts Hc. specialize (H Hts Hc). exact (trunc_sum_le _ _ M (fun _ => scaled_spec M d _ _) _ _ HM H).
Qed.
Print Assumptions C61_optimal_divergence.
