(** Continuous target: constraints on the rows of the fitted table (C28). *)
From Coq Require Import List ZArith Bool Arith Lia QArith Qabs Sorting Permutation.
From Verif Require Import Model.Arr Model.Core Model.CP Model.Cont Spec.CoreSpec Spec.CPSpec Spec.CPFitSpec Spec.ContSpec
  Proofs.ArrP Proofs.CoreP Proofs.FitP Proofs.CoreFinal Proofs.CPP Proofs.CPC Proofs.CPTable Proofs.CPFinal Proofs.ContP Proofs.ContC.
Import ListNotations.
Open Scope Z_scope.

Lemma merge_stats_loop sol : forall acc st rows, merge_stats acc sol st = Some rows ->
  merge_loop (c_n acc) sol (map c_n st) = Some (map (fun r => fst (tab r)) rows) /\
  merge_loop (c_sum acc) sol (map c_sum st) = Some (map (fun r => snd (tab r)) rows) /\
  merge_loop (c_ss acc) sol (map c_ss st) = Some (map (fun r => snd (moments r)) rows).
Proof.
  induction sol as [|b s IH]; intros acc st rows H; [injection H as <-; repeat split; reflexivity|].
  destruct st as [|c st]; [discriminate|]. cbn [merge_stats] in H. cbn [map merge_loop]. destruct b.
  - destruct (merge_stats acc0 s st) as [rows'|] eqn:E; [|discriminate]. injection H as <-.
    destruct (IH _ _ _ E) as (H1 & H2 & H3). cbn [acc0 c_n c_sum c_ss] in H1, H2, H3. rewrite H1, H2, H3. cbn [option_map map]. repeat split; reflexivity.
  - apply IH in H. cbn [acc_add c_n c_sum c_ss] in H. exact H.
Qed.

Record c_facts (f : cfitted) (X : mat) (gs : list group) : Prop := {
  cf_part : partition (length (cp_stats (cf_prebins f))) gs;
  cf_desc : describes (length (cp_stats (cf_prebins f))) gs X;
  cf_nbins : S (length (cf_splits f)) = length gs;
  cf_tab : map tab (c_clean_rows f) = rows_of (map c_n (cp_stats (cf_prebins f))) (map c_sum (cp_stats (cf_prebins f))) gs;
  cf_moments : map moments (c_clean_rows f) =
    map (fun g => (gsum (map c_n (cp_stats (cf_prebins f))) g, gsum (map c_sum (cp_stats (cf_prebins f))) g,
                   gsum (map c_ss (cp_stats (cf_prebins f))) g)) gs;
  cf_pos : pos_list (map c_n (cp_stats (cf_prebins f))) }.

Lemma c_data_weights sp rs s : (forall r, In r rs -> 0 <= k_w r) -> In s (c_data sp rs) -> 0 <= s_w s.
Proof.
  intros H Hs. unfold c_data in Hs. apply in_map_iff in Hs. destruct Hs as (r & <- & Hr). apply filter_In in Hr. cbn. now apply H.
Qed.
Lemma stat_nonneg l : (forall s, In s l -> 0 <= s_w s) -> 0 <= c_n (stat_of l).
Proof.
  intros H. cbn [stat_of c_n]. induction l as [|s l IH]; cbn [map zsum]; [lia|].
  pose proof (H s (or_introl eq_refl)). assert (0 <= zsum (map s_w l)) by (apply IH; intros; apply H; now right). lia.
Qed.

Lemma c_fit_groups old solver sp fixed user splits0 rs f X :
  (forall r, In r rs -> 0 <= k_w r) ->
  fit_cont old solver sp fixed user splits0 rs = Some (Ok f) ->
  let n := length (cp_stats (cf_prebins f)) in
  (1 < n)%nat -> solver (cp_stats (cf_prebins f)) = solution_vector n (Solved X) ->
  structural n X -> exists gs, c_facts f X gs.
Proof.
  intros Hw Hf n Hn Hsol HS. destruct (fit_cont_inv _ _ _ _ _ _ _ _ Hf) as (srows & _ & _ & [C|C]).
  { destruct C as (_ & E & _). unfold n in Hn. rewrite E in Hn. cbn in Hn. lia. }
  destruct C as (R & Hs1 & Hspl & Hrows). destruct (structural_partition n X ltac:(lia) HS) as (gs & Hp & Hr).
  destruct (last_solution n gs X ltac:(lia) Hp Hr) as (Hlast & Hlsol & Hcnt).
  rewrite <- Hsol, <- Hs1 in Hlast, Hlsol, Hcnt.
  assert (Hne : cf_solution f <> []) by (intros E; rewrite E in Hlsol; cbn in Hlsol; lia).
  destruct (Hrows Hne) as (rows & Hm & Er).
  destruct (merge_stats_loop _ _ _ _ Hm) as (M1 & M2 & M3). cbn [acc0 c_n c_sum c_ss] in M1, M2, M3.
  rewrite Hs1, Hsol in M1, M2, M3.
  rewrite (merge_solution n gs X) in M1, M2, M3 by (auto; now rewrite map_length).
  assert (Hls : S (length (cf_splits f)) = length gs).
  { rewrite Hspl, length_select; [rewrite <- Hcnt, (count_true_init (cf_solution f)) by auto; lia|].
    rewrite length_init, Hlsol. unfold n. rewrite (rc_stats _ _ _ R), length_stats. lia. }
  assert (Hlr : length rows = length gs).
  { apply (f_equal (fun o => match o with Some l => length l | None => 0%nat end)) in M1. rewrite !map_length in M1. congruence. }
  assert (Hcl : c_clean_rows f = rows).
  { unfold c_clean_rows. rewrite Er, Hls, <- Hlr, firstn_app, Nat.sub_diag, firstn_all. cbn [firstn]. apply app_nil_r. }
  exists gs. constructor; auto; rewrite ?Hcl.
  - unfold rows_of. injection M1 as M1. injection M2 as M2. clear -M1 M2. revert gs M1 M2.
    induction rows as [|r rows IH]; intros [|g gs] M1 M2; cbn [map] in *; try discriminate; [reflexivity|].
    injection M1 as A1 A2. injection M2 as B1 B2. rewrite (IH gs A2 B2). f_equal. unfold tab in *. cbn [fst snd] in *. congruence.
  - injection M1 as M1. injection M2 as M2. injection M3 as M3. clear -M1 M2 M3. revert gs M1 M2 M3.
    induction rows as [|r rows IH]; intros [|g gs] M1 M2 M3; cbn [map] in *; try discriminate; [reflexivity|].
    injection M1 as A1 A2. injection M2 as B1 B2. injection M3 as D1 D2. rewrite (IH gs A2 B2 D2). f_equal.
    unfold moments, tab in *. cbn [fst snd] in *. congruence.
  - intros a Ha. apply in_map_iff in Ha. destruct Ha as (c & <- & Hc).
    pose proof (rc_pos _ _ _ R c Hc) as Hnz. rewrite (rc_stats _ _ _ R) in Hc. unfold stats in Hc.
    apply in_map_iff in Hc. destruct Hc as (i & <- & _).
    pose proof (stat_nonneg (bin_records (cp_splits (cf_prebins f)) (c_data sp rs) i)) as Hg.
    assert (0 <= c_n (stat_of (bin_records (cp_splits (cf_prebins f)) (c_data sp rs) i))).
    { apply Hg. intros s Hs. unfold bin_records in Hs. apply filter_In in Hs. eapply c_data_weights; [exact Hw|apply Hs]. }
    lia.
Qed.

Lemma tmean_tab yu r : (tmean yu r == gmean yu (tab r))%Q.
Proof.
  unfold tmean, gmean, tab. cbn [fst snd]. destruct (r_sum r); [reflexivity|].
  unfold Qdiv. rewrite Qmult_0_l. reflexivity.
Qed.

Lemma c_feasible_structural n U cnt g X : c_feasible n U cnt g X -> structural n X.
Proof. intros (A & B & C & _). repeat split; assumption. Qed.

Section Table.
Variables (old : stale) (solver : list cstat -> list bool) (sp : special) (fixed : option (list bool))
  (user : option (list Z)) (splits0 : list Z) (rs : list krec) (f : cfitted) (M yu : Z) (g : cc_cfg) (X : mat).
Hypothesis Hw : forall r, In r rs -> 0 <= k_w r.
Hypothesis Hf : fit_cont old solver sp fixed user splits0 rs = Some (Ok f).
Hypothesis Hsol : c_solved f solver M yu g X.
Let N := map c_n (cp_stats (cf_prebins f)).
Let S' := map c_sum (cp_stats (cf_prebins f)).
Let n := length (cp_stats (cf_prebins f)).
Let U := mean_mat M yu N S'.

Lemma c_groups : exists gs, c_facts f X gs.
Proof. destruct Hsol as (Hn & Hs & HF). eapply c_fit_groups; eauto. eapply c_feasible_structural; eauto. Qed.
Let lN : length N = n. Proof. unfold N, n. now rewrite map_length. Qed.
Let lS : length S' = length N. Proof. unfold N, S'. now rewrite !map_length. Qed.

Lemma in_rows_tab r gs : c_facts f X gs -> In r (c_clean_rows f) -> exists gr, In gr gs /\ tab r = (gsum N gr, gsum S' gr).
Proof.
  intros F Hr. apply (in_map tab) in Hr. rewrite (cf_tab _ _ _ F) in Hr. unfold rows_of in Hr. apply in_map_iff in Hr.
  destruct Hr as (gr & E & Hin). exists gr. split; [exact Hin|]. symmetry. exact E.
Qed.
Lemma rows_pos r : In r (c_clean_rows f) -> 0 < r_n r.
Proof.
  intros Hr. destruct c_groups as [gs F]. destruct (in_rows_tab r gs F Hr) as (gr & Hg & E).
  change (r_n r) with (fst (tab r)). rewrite E. cbn [fst]. destruct gr as [s e].
  pose proof (chain_in _ _ _ _ _ (cf_part _ _ _ F) Hg). fold n in H. apply gsum_pos; [apply (cf_pos _ _ _ F)|lia|lia].
Qed.

Hypothesis HM : 0 < M.
Hypothesis Hy : 0 < yu.

(** transport from groups to rows *)
Let pN gs : c_facts f X gs -> partition (length N) gs.
Proof. intros F. rewrite lN. apply (cf_part _ _ _ F). Qed.
Lemma le_rows gs : c_facts f X gs -> forall l, (forall g0, In g0 l -> In g0 gs) ->
  forall rows, map tab rows = rows_of N S' l ->
  all_pairs (g_le U) l -> all_pairs (mean_le_res M yu) rows.
Proof.
  intros F l Hl rows E H. apply (all_pairs_unmap tab) with (Q := fun a b => (gmean yu a < gmean yu b + 2 / inject_Z M)%Q).
  - intros a b _ _ Hab. unfold mean_le_res. rewrite !tmean_tab. exact Hab.
  - rewrite E. apply (all_pairs_map (fun g0 : group => (gsum N g0, gsum S' g0))) with (P := g_le U); [|exact H].
    intros a b Ha Hb Hab. apply (c_le_mean M yu HM Hy N S' gs lS (pN gs F) (cf_pos _ _ _ F)); auto.
Qed.
Lemma ge_rows gs : c_facts f X gs -> forall l, (forall g0, In g0 l -> In g0 gs) ->
  forall rows, map tab rows = rows_of N S' l ->
  all_pairs (g_ge U) l -> all_pairs (mean_ge_res M yu) rows.
Proof.
  intros F l Hl rows E H. apply (all_pairs_unmap tab) with (Q := fun b a => (gmean yu a < gmean yu b + 2 / inject_Z M)%Q).
  - intros a b _ _ Hab. unfold mean_ge_res, mean_le_res. rewrite !tmean_tab. exact Hab.
  - rewrite E. apply (all_pairs_map (fun g0 : group => (gsum N g0, gsum S' g0))) with (P := g_ge U); [|exact H].
    intros a b Ha Hb Hab. apply (c_le_mean M yu HM Hy N S' gs lS (pN gs F) (cf_pos _ _ _ F)); auto.
Qed.
Lemma up_down_rows gs : c_facts f X gs -> up_down (g_le U) gs -> up_down (mean_le_res M yu) (c_clean_rows f).
Proof.
  intros F H. apply (up_down_unmap tab) with (Q := fun a b => (gmean yu a < gmean yu b + 2 / inject_Z M)%Q).
  - intros a b _ _ Hab. unfold mean_le_res. rewrite !tmean_tab. exact Hab.
  - rewrite (cf_tab _ _ _ F). apply (up_down_map (fun g0 : group => (gsum N g0, gsum S' g0))) with (P := g_le U); [|exact H].
    intros a b Ha Hb Hab. apply (c_le_mean M yu HM Hy N S' gs lS (pN gs F) (cf_pos _ _ _ F)); auto.
Qed.
Lemma down_up_rows gs : c_facts f X gs -> up_down (g_ge U) gs -> up_down (mean_ge_res M yu) (c_clean_rows f).
Proof.
  intros F H. apply (up_down_unmap tab) with (Q := fun b a => (gmean yu a < gmean yu b + 2 / inject_Z M)%Q).
  - intros a b _ _ Hab. unfold mean_ge_res, mean_le_res. rewrite !tmean_tab. exact Hab.
  - rewrite (cf_tab _ _ _ F). apply (up_down_map (fun g0 : group => (gsum N g0, gsum S' g0))) with (P := g_ge U); [|exact H].
    intros a b Ha Hb Hab. apply (c_le_mean M yu HM Hy N S' gs lS (pN gs F) (cf_pos _ _ _ F)); auto.
Qed.
Lemma all_triples_unmap {A B} (F : A -> B) (P : A -> A -> A -> Prop) (Q : B -> B -> B -> Prop) l :
  (forall a b c, In a l -> In b l -> In c l -> Q (F a) (F b) (F c) -> P a b c) ->
  all_triples Q (map F l) -> all_triples P l.
Proof.
  induction l as [|x l IH]; intros H HT; [constructor|]. cbn [map] in HT. inversion HT as [|? ? Hp Ht]; subst. constructor.
  - revert Hp. apply all_pairs_unmap. intros a b Ha Hb. apply H; [now left|now right|now right].
  - apply IH; [|exact Ht]. intros a b c Ha Hb Hc. apply H; now right.
Qed.
Lemma concave_rows gs : c_facts f X gs ->
  all_triples (fun a b c => at_group U a + at_group U c <= 2 * at_group U b) gs ->
  all_triples (fun a b c => (tmean yu a + tmean yu c < 2 * tmean yu b + 4 / inject_Z M)%Q) (c_clean_rows f).
Proof.
  intros F H. apply (all_triples_unmap tab) with (Q := fun a b c => (gmean yu a + gmean yu c < 2 * gmean yu b + 4 / inject_Z M)%Q).
  - intros a b c _ _ _ Hab. rewrite !tmean_tab. exact Hab.
  - rewrite (cf_tab _ _ _ F). unfold rows_of. revert H. apply (all_triples_map (fun g0 : group => (gsum N g0, gsum S' g0))).
    intros a b c Ha Hb Hc H. unfold U in H. rewrite !(cF_U M yu N S' gs lS (pN gs F)) in H by assumption.
    apply (smean_triple M yu HM Hy _ _ _ 0); try lia;
      apply (cF_pos N S' gs lS (pN gs F) (cf_pos _ _ _ F)); assumption.
Qed.
Lemma convex_rows gs : c_facts f X gs ->
  all_triples (fun a b c => 2 * at_group U b <= at_group U a + at_group U c) gs ->
  all_triples (fun a b c => (2 * tmean yu b < tmean yu a + tmean yu c + 4 / inject_Z M)%Q) (c_clean_rows f).
Proof.
  intros F H. apply (all_triples_unmap tab) with (Q := fun a b c => (2 * gmean yu b < gmean yu a + gmean yu c + 4 / inject_Z M)%Q).
  - intros a b c _ _ _ Hab. rewrite !tmean_tab. exact Hab.
  - rewrite (cf_tab _ _ _ F). unfold rows_of. revert H. apply (all_triples_map (fun g0 : group => (gsum N g0, gsum S' g0))).
    intros a b c Ha Hb Hc H. unfold U in H. rewrite !(cF_U M yu N S' gs lS (pN gs F)) in H by assumption.
    apply (smean_triple2 M yu HM Hy); try lia;
      apply (cF_pos N S' gs lS (pN gs F) (cf_pos _ _ _ F)); assumption.
Qed.

Theorem c_trend_table :
  match cg_trend g with
  | TNone => True
  | TAscending => all_pairs (mean_le_res M yu) (c_clean_rows f)
  | TDescending => all_pairs (mean_ge_res M yu) (c_clean_rows f)
  | TPeak => up_down (mean_le_res M yu) (c_clean_rows f)
  | TValley => up_down (mean_ge_res M yu) (c_clean_rows f)
  | TPeakHeuristic tc => (tc <= n)%nat -> up_down (mean_le_res M yu) (c_clean_rows f)
  | TValleyHeuristic tc => (tc <= n)%nat -> up_down (mean_ge_res M yu) (c_clean_rows f)
  | TConcave => all_triples (fun a b c => (tmean yu a + tmean yu c < 2 * tmean yu b + 4 / inject_Z M)%Q) (c_clean_rows f)
  | TConvex => all_triples (fun a b c => (2 * tmean yu b < tmean yu a + tmean yu c + 4 / inject_Z M)%Q) (c_clean_rows f)
  end.
Proof.
  destruct c_groups as [gs F]. pose proof Hsol as (Hn & Hs & HF). fold n N S' U in Hn, Hs, HF.
  destruct HF as (_ & _ & _ & _ & _ & HT & _). assert (H0 : (0 < n)%nat) by lia.
  pose proof (cf_part _ _ _ F) as Hp. pose proof (cf_desc _ _ _ F) as Hr. fold n in Hp, Hr.
  destruct (cg_trend g) as [| | | | | | |tc|tc]; cbn [c_trend] in HT; try exact I; try intros Ht.
  - eapply le_rows; eauto; [apply (cf_tab _ _ _ F)|]. now apply (c_ascending_iff n gs X U H0 Hp Hr).
  - eapply ge_rows; eauto; [apply (cf_tab _ _ _ F)|]. now apply (c_descending_iff n gs X U H0 Hp Hr).
  - apply (concave_rows gs F). now apply (c_concave_sound n gs X U H0 Hp Hr).
  - apply (convex_rows gs F). now apply (c_convex_sound n gs X U H0 Hp Hr).
  - apply (up_down_rows gs F). now apply (c_peak_sound n gs X U H0 Hp Hr).
  - apply (down_up_rows gs F). now apply (c_valley_sound n gs X U H0 Hp Hr).
  - apply (up_down_rows gs F). now apply (c_peak_heur_sound n gs X U H0 Hp Hr tc).
  - apply (down_up_rows gs F). now apply (c_valley_heur_sound n gs X U H0 Hp Hr tc).
Qed.
End Table.

(** ** Requests on groups: what a valid binning is *)
Section Request.
Variables (N S' SS : list Z) (gs : list group) (X : mat).
Let n := length N.
Hypothesis lS : length S' = length N.
Hypothesis lSS : length SS = length N.
Hypothesis Hn : (0 < n)%nat.
Hypothesis Hp : partition n gs.
Hypothesis Hr : describes n gs X.

Lemma c_sizes mn mx : min_max_bin_size n mn mx (at0 N) X <-> Forall (fun r => within mn mx (fst r)) (rows_of N S' gs).
Proof.
  rewrite (min_max_bin_size_iff n gs X Hn Hp Hr). apply (size_F N S' gs). intros x Hx. apply (cnt_ne N S' gs); auto.
Qed.
End Request.

Section Complete.
Variables (N S' SS : list Z) (gs : list group) (M yu : Z) (g : cc_cfg)
  (pol : pvalue_policy) (test : Z * Z * Z -> Z * Z * Z -> bool) (md : option Q).
Hypothesis lS : length S' = length N.
Hypothesis lSS : length SS = length N.
Hypothesis HM : 0 < M.
Hypothesis Hy : 0 < yu.
Hypothesis PN : pos_list N.
Hypothesis Hn : (0 < length N)%nat.
Hypothesis Hp : partition (length N) gs.
Hypothesis Epv : cg_pviol g = c_pviol pol test N S' SS.
Hypothesis Edv : cg_dviol g = c_dviol md N S'.
Hypothesis Hok : c_request_ok N S' SS gs yu g pol test md.

Lemma sum_same_sign : nonneg_or_nonpos S' -> same_sign (length N) (mean_mat M yu N S').
Proof.
  assert (Hg : forall i j, (i < length N)%nat -> (j <= i)%nat -> 0 < yu * cum_mat N i j).
  { intros i j Hi Hj. rewrite cum_mat_gsum by lia. pose proof (gsum_pos N j i PN Hj Hi). nia. }
  assert (In_slice : forall l s e v, In v (slice l (s, e)) -> In v l).
  { intros l s e v Hv. unfold slice in Hv. cbn [fst snd] in Hv. rewrite <- (firstn_skipn s l). apply in_or_app. right.
    rewrite <- (firstn_skipn (Datatypes.S e - s) (skipn s l)). apply in_or_app. now left. }
  intros [H|H]; [left|right]; intros i j Hi Hj; unfold mean_mat; specialize (Hg i j Hi Hj).
  - apply Z.quot_pos; [|exact Hg]. rewrite cum_mat_gsum by lia. unfold gsum.
    assert (0 <= zsum (slice S' (j, i))); [|nia].
    assert (G : forall l, (forall v, In v l -> 0 <= v) -> 0 <= zsum l).
    { induction l as [|a l IH]; intros Hl; cbn [zsum]; [lia|]. pose proof (Hl a (or_introl eq_refl)).
      assert (0 <= zsum l) by (apply IH; intros; apply Hl; now right). lia. }
    apply G. intros v Hv. apply H. eapply In_slice; eauto.
  - assert (G : forall l, (forall v, In v l -> v <= 0) -> zsum l <= 0).
    { induction l as [|a l IH]; intros Hl; cbn [zsum]; [lia|]. pose proof (Hl a (or_introl eq_refl)).
      assert (zsum l <= 0) by (apply IH; intros; apply Hl; now right). lia. }
    rewrite (cum_mat_gsum S') by lia. unfold gsum.
    assert (zsum (slice S' (j, i)) <= 0) by (apply G; intros v Hv; apply H; eapply In_slice; eauto).
    apply Z.opp_nonneg_nonpos. rewrite <- Z.quot_opp_l by lia. apply Z.quot_pos; [nia|exact Hg].
Qed.

Lemma c_complete : exists X, describes (length N) gs X /\ c_feasible (length N) (mean_mat M yu N S') (at0 N) g X.
Proof.
  exists (mat_of gs). pose proof (mat_of_represents (length N) gs) as Hr. split; [exact Hr|].
  destruct Hok as [Ht Hb Hs Hpv Hmd Hfx]. destruct (represents_structural _ _ _ Hp Hr) as (S1 & S2 & S3).
  refine (conj S1 (conj S2 (conj S3 (conj _ (conj _ (conj _ (conj _ (conj _ _)))))))).
  - now apply (min_max_bins_iff _ _ _ Hn Hp Hr).
  - now apply (c_sizes N S' gs _ lS Hn Hp Hr).
  - assert (LE : forall a b, In a gs -> In b gs -> mean_le yu (gsum N a, gsum S' a) (gsum N b, gsum S' b) -> g_le (mean_mat M yu N S') a b).
    { intros a b Ha Hb' H. apply (c_mean_le M yu HM Hy N S' gs lS Hp PN); auto. }
    unfold c_trend_met in Ht. destruct (cg_trend g); cbn [c_trend]; try contradiction; try exact I.
    + apply (c_ascending_iff _ _ _ _ Hn Hp Hr). revert Ht. unfold rows_of.
      apply (all_pairs_unmap (fun g0 : group => (gsum N g0, gsum S' g0))). exact LE.
    + apply (c_descending_iff _ _ _ _ Hn Hp Hr). revert Ht. unfold rows_of.
      apply (all_pairs_unmap (fun g0 : group => (gsum N g0, gsum S' g0))). intros a b Ha Hb'. apply LE; assumption.
    + destruct Ht as [Ht Hsg]. apply (c_peak_complete _ _ _ _ Hn Hp Hr); [now apply sum_same_sign|]. revert Ht. unfold rows_of.
      apply (up_down_unmap (fun g0 : group => (gsum N g0, gsum S' g0))). exact LE.
    + destruct Ht as [Ht Hsg]. apply (c_valley_complete _ _ _ _ Hn Hp Hr); [now apply sum_same_sign|]. revert Ht. unfold rows_of.
      apply (up_down_unmap (fun g0 : group => (gsum N g0, gsum S' g0))). intros a b Ha Hb'. apply LE; assumption.
  - rewrite Epv. apply (c_pvalue N S' gs lS Hp _ pol test SS Hn lSS Hr). exact Hpv.
  - rewrite Edv. destruct md as [d|]; [|intros v []]. apply (c_min_diff N S' gs lS Hp _ d Hn Hr). now apply Hmd.
  - apply (fixed_iff _ _ _ Hn Hp Hr). exact Hfx.
Qed.
End Complete.

Section Table2.
Variables (old : stale) (solver : list cstat -> list bool) (sp : special) (fixed : option (list bool))
  (user : option (list Z)) (splits0 : list Z) (rs : list krec) (f : cfitted) (M yu : Z) (g : cc_cfg) (X : mat).
Hypothesis Hw : forall r, In r rs -> 0 <= k_w r.
Hypothesis Hf : fit_cont old solver sp fixed user splits0 rs = Some (Ok f).
Hypothesis Hsol : c_solved f solver M yu g X.
Let N := map c_n (cp_stats (cf_prebins f)).
Let S' := map c_sum (cp_stats (cf_prebins f)).
Let SS := map c_ss (cp_stats (cf_prebins f)).
Let n := length (cp_stats (cf_prebins f)).

Lemma c_sizes_table :
  length (c_clean_rows f) = (length (cf_splits f) + 1)%nat /\
  within (cg_min_bins g) (cg_max_bins g) (Z.of_nat (length (cf_splits f) + 1)) /\
  Forall (fun r => within (cg_min_size g) (cg_max_size g) (r_n r)) (c_clean_rows f).
Proof.
  destruct (c_groups _ _ _ _ _ _ _ _ _ _ _ _ Hw Hf Hsol) as [gs F]. pose proof Hsol as (Hn & _ & HF).
  destruct HF as (_ & _ & _ & Hb & Hs & _).
  pose proof (cf_part _ _ _ F) as Hp. pose proof (cf_desc _ _ _ F) as Hr. pose proof (cf_nbins _ _ _ F) as Hnb.
  assert (H0 : (0 < length (cp_stats (cf_prebins f)))%nat) by lia.
  assert (HL : length (c_clean_rows f) = length gs).
  { rewrite <- (map_length tab), (cf_tab _ _ _ F). unfold rows_of. now rewrite map_length. }
  split; [lia|]. split.
  - replace (length (cf_splits f) + 1)%nat with (length gs) by lia. exact (proj1 (min_max_bins_iff _ _ _ H0 Hp Hr _ _) Hb).
  - assert (lN : length (cp_stats (cf_prebins f)) = length N) by (unfold N; now rewrite map_length).
    rewrite lN in Hs, Hp, Hr. fold N in Hs. apply (c_sizes N S' gs X) in Hs; [|unfold S', N; now rewrite !map_length|lia|exact Hp|exact Hr].
    pose proof (cf_tab _ _ _ F) as ET. fold N S' in ET. rewrite <- ET in Hs. rewrite Forall_map in Hs. exact Hs.
Qed.
Lemma c_pvalue_table pol test : cg_pviol g = c_pviol pol test N S' SS ->
  match pol with
  | PVNone => True
  | PVAll => all_pairs (fun r1 r2 => test (moments r1) (moments r2) = false) (c_clean_rows f)
  | PVConsecutive => neighbours (fun r1 r2 => test (moments r1) (moments r2) = false) (c_clean_rows f)
  end.
Proof.
  intros E. destruct (c_groups _ _ _ _ _ _ _ _ _ _ _ _ Hw Hf Hsol) as [gs F]. pose proof Hsol as (Hn & _ & HF).
  destruct HF as (_ & _ & _ & _ & _ & _ & Hv & _). rewrite E in Hv.
  pose proof (cf_part _ _ _ F) as Hp. pose proof (cf_desc _ _ _ F) as Hr.
  assert (lN : length (cp_stats (cf_prebins f)) = length N) by (unfold N; now rewrite map_length).
  rewrite lN in Hp, Hr, Hn.
  apply (c_pvalue N S' gs) in Hv; [|unfold S', N; now rewrite !map_length|exact Hp|lia|unfold SS, N; now rewrite !map_length|exact Hr].
  pose proof (cf_moments _ _ _ F) as EM. fold N S' SS in EM. rewrite <- EM in Hv. destruct pol; [exact I| |].
  - revert Hv. apply all_pairs_unmap. auto.
  - revert Hv. apply neighbours_unmap. auto.
Qed.
Hypothesis Hy : 0 < yu.
Lemma c_min_diff_table d : cg_dviol g = c_dviol (Some (d * inject_Z yu)%Q) N S' ->
  neighbours (fun r1 r2 => (d <= Qabs (tmean yu r1 - tmean yu r2))%Q) (c_clean_rows f).
Proof.
  intros E. destruct (c_groups _ _ _ _ _ _ _ _ _ _ _ _ Hw Hf Hsol) as [gs F]. pose proof Hsol as (Hn & _ & HF).
  destruct HF as (_ & _ & _ & _ & _ & _ & _ & Hv & _). rewrite E in Hv.
  pose proof (cf_part _ _ _ F) as Hp. pose proof (cf_desc _ _ _ F) as Hr.
  assert (lN : length (cp_stats (cf_prebins f)) = length N) by (unfold N; now rewrite map_length).
  rewrite lN in Hp, Hr, Hn.
  apply (c_min_diff N S' gs) in Hv; [|unfold S', N; now rewrite !map_length|exact Hp|lia|exact Hr].
  pose proof (cf_tab _ _ _ F) as ET. fold N S' in ET. rewrite <- ET in Hv. revert Hv. apply neighbours_unmap.
  intros a b Ha Hb H. rewrite !tmean_tab. unfold gmean.
  pose proof (rows_pos _ _ _ _ _ _ _ _ _ _ _ _ Hw Hf Hsol a Ha) as Pa. pose proof (rows_pos _ _ _ _ _ _ _ _ _ _ _ _ Hw Hf Hsol b Hb) as Pb.
  change (r_n a) with (fst (tab a)) in Pa. change (r_n b) with (fst (tab b)) in Pb. revert H Pa Pb.
  generalize (tab a) (tab b). intros [na sa] [nb sb]. cbn [fst snd]. intros H Pa Pb.
  assert (Y : ~ (inject_Z yu == 0)%Q) by now apply Qne_inj. assert (A : ~ (inject_Z na == 0)%Q) by now apply Qne_inj. assert (B : ~ (inject_Z nb == 0)%Q) by now apply Qne_inj.
  assert (E1 : (inject_Z sa / (inject_Z yu * inject_Z na) - inject_Z sb / (inject_Z yu * inject_Z nb) ==
                (inject_Z sa / inject_Z na - inject_Z sb / inject_Z nb) / inject_Z yu)%Q) by (field; auto).
  rewrite E1. unfold Qdiv at 1. rewrite Qabs_Qmult. rewrite (Qabs_pos (/ inject_Z yu)) by (apply Qlt_le_weak, Qinv_lt_0_compat, Qpos_inj, Hy).
  apply (Qmult_le_r _ _ (inject_Z yu)); [now apply Qpos_inj|].
  setoid_replace (Qabs (inject_Z sa / inject_Z na - inject_Z sb / inject_Z nb) * / inject_Z yu * inject_Z yu)%Q
    with (Qabs (inject_Z sa / inject_Z na - inject_Z sb / inject_Z nb)) by (field; auto). exact H.
Qed.
End Table2.
Lemma nth_error_firstn {A} (l : list A) : forall n k, (k < n)%nat -> nth_error (firstn n l) k = nth_error l k.
Proof. induction l as [|a l IH]; intros [|n] [|k] H; try lia; try reflexivity. cbn [firstn nth_error]. apply IH. lia. Qed.

Lemma c_rows_shape old solver sp fixed user splits0 rs f :
  nondecreasing splits0 -> c_solver_ok solver ->
  fit_cont old solver sp fixed user splits0 rs = Some (Ok f) ->
  exists srows, special_rows sp (filter (k_special sp) rs) = Ok srows /\
    cf_rows f = c_clean_rows f ++ srows ++ [missing_row old (filter k_missing rs)].
Proof.
  intros Hs Hok Hf. destruct (fit_cont_inv _ _ _ _ _ _ _ _ Hf) as (srows & Hsr & Href & [C|C]); exists srows; (split; [exact Hsr|]).
  - destruct C as (_ & _ & _ & _ & C5 & C6). unfold c_clean_rows. rewrite C5, C6. reflexivity.
  - destruct C as (R & Hsol & Hspl & Hrows).
    assert (Hn : nondecreasing (cp_splits (cf_prebins f))) by (eapply subseq_nondecr; [apply (rc_sub _ _ _ R)|exact Hs]).
    assert (Hlen : (2 <= length (cp_stats (cf_prebins f)))%nat).
    { rewrite (rc_stats _ _ _ R), length_stats. pose proof (rc_ne _ _ _ R). destruct (cp_splits (cf_prebins f)); [congruence|]. cbn; lia. }
    destruct (Hok _ Hlen) as [Hsl Hlast]. rewrite <- Hsol in Hsl, Hlast.
    rewrite (rc_stats _ _ _ R), length_stats in Hsl.
    destruct Hrows as (rows & Hm & Hr); [intros E; rewrite E in Hsl; cbn in Hsl; lia|].
    rewrite (rc_stats _ _ _ R) in Hm.
    destruct (merge_stats_bins _ _ _ _ Hn Hsl Hlast (fun i Hi => refined_bins _ _ _ i R Hi) Hm) as [HL _].
    rewrite <- Hspl in HL. unfold c_clean_rows. rewrite Hr, <- HL, firstn_app, Nat.sub_diag, firstn_all. cbn [firstn]. now rewrite app_nil_r.
Qed.

(** ** Objective *)
Lemma c_objective_groups M yu N S' gs X : length S' = length N -> (0 < length N)%nat -> partition (length N) gs -> describes (length N) gs X ->
  objective (length N) (norm_mat M yu N S') X = zsum (map (norm_phi M yu N S') (rows_of N S' gs)).
Proof.
  intros lS Hn Hp Hr. rewrite (objective_groups (length N) gs X Hn Hp Hr). unfold rows_of. rewrite map_map. apply zsum_map_ext.
  intros [s e] Hin. pose proof (chain_in _ _ _ _ _ Hp Hin). unfold at_group, norm_mat, norm_phi. cbn [fst snd].
  rewrite !cum_mat_gsum by lia. reflexivity.
Qed.
