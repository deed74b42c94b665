(** Scenario-based binning: tables, requests in every scenario, completeness, objective, weights. *)
From Coq Require Import List ZArith Bool Arith Lia QArith Qround Sorting.
From Verif Require Import Model.Arr Model.Core Model.CP Model.Multi Model.Lifecycle Model.Scenario
  Spec.CoreSpec Spec.CPSpec Spec.CPFitSpec Spec.ScenarioSpec
  Proofs.ArrP Proofs.CoreP Proofs.FitP Proofs.CoreFinal Proofs.CPP Proofs.CPC Proofs.CPTable Proofs.CPFinal
  Proofs.MultiP Proofs.MultiFinal Proofs.LifeR Proofs.ScenP.
Import ListNotations.
Open Scope Z_scope.

(** * Shared change point *)
Section Bend.
Variables (n : nat) (gs : list group) (X : mat) (M : Z).
Hypothesis Hn : (0 < n)%nat.
Hypothesis Hp : partition n gs.
Hypothesis Hr : describes n gs X.

Lemma cut_prefix c : exists k, firstn k gs ++ skipn k gs = gs /\
  (forall s e, In (s, e) (firstn k gs) -> (e < c)%nat) /\ (forall s e, In (s, e) (skipn k gs) -> (c <= e)%nat).
Proof.
  destruct (chain_split_at _ _ _ c Hp) as (g1 & g2 & E & H1 & H2). exists (length g1). split; [apply firstn_skipn|].
  rewrite E, firstn_app, skipn_app, Nat.sub_diag, firstn_all, skipn_all. cbn [firstn skipn app]. rewrite app_nil_r. auto.
Qed.
Lemma in_firstn {A} k (l : list A) x : In x (firstn k l) -> In x l.
Proof. intros H. rewrite <- (firstn_skipn k l). apply in_or_app. now left. Qed.
Lemma in_skipn {A} k (l : list A) x : In x (skipn k l) -> In x l.
Proof. intros H. rewrite <- (firstn_skipn k l). apply in_or_app. now right. Qed.
Lemma sub_chains k : exists m, (m <= n)%nat /\ chain 0 m (firstn k gs) /\ chain m n (skipn k gs).
Proof.
  assert (Hc : chain 0 n (firstn k gs ++ skipn k gs)) by (rewrite firstn_skipn; exact Hp).
  destruct (chain_app _ _ _ _ Hc) as (m & C1 & C2). exists m. split; [exact (chain_le _ _ _ C2)|auto].
Qed.

Lemma peak_bends y t : change_point n y t -> exists k, forall D, bounded n D M -> peak n D M y X -> bends_at k (g_le D) gs.
Proof.
  intros Hc. destruct (change_point_cut _ Hn y t Hc) as (c & Hcn & Y1 & Y0).
  destruct (cut_prefix c) as (k & E & L & R). exists k. intros D HD H.
  assert (A : range_asc gs D 0 c).
  { apply (asc_range_iff n gs X Hn Hp Hr D M HD); [lia|]. intros i z _ Hzi Hi. destruct (H i z) as [_ H2]; [lia|lia|].
    rewrite (peak_row2 _ _ Hn) in H2. rewrite (Y1 i), (Y1 z) in H2 by lia. apply (asc_row _ _ Hn); lia. }
  assert (B : range_desc gs D c n).
  { apply (desc_range_iff n gs X Hn Hp Hr D M HD); [lia|]. intros i z Hc1 Hzi Hi. destruct (H i z) as [H1 _]; [lia|lia|].
    rewrite (peak_row _ _ Hn) in H1. rewrite (Y0 i), (Y0 z) in H1 by lia. apply (desc_row _ _ Hn); lia. }
  destruct (sub_chains k) as (m & Hm & C1 & C2). split.
  - apply (chain_pairs _ _ _ _ C1). intros s1 e1 s2 e2 I1 I2 H12. unfold g_le, at_group. cbn [fst snd].
    apply A; try lia; [eapply in_firstn; exact I1|eapply in_firstn; exact I2|exact (L s2 e2 I2)].
  - apply (chain_pairs _ _ _ _ C2). intros s1 e1 s2 e2 I1 I2 H12. unfold g_le, at_group. cbn [fst snd].
    apply B; try lia; [eapply in_skipn; exact I1|eapply in_skipn; exact I2|exact (R s1 e1 I1)|]. apply (chain_in _ _ _ _ _ C2) in I2. lia.
Qed.
Lemma valley_bends y t : change_point n y t -> exists k, forall D, bounded n D M -> valley n D M y X -> bends_at k (g_ge D) gs.
Proof.
  intros Hc. destruct (change_point_cut _ Hn y t Hc) as (c & Hcn & Y1 & Y0).
  destruct (cut_prefix c) as (k & E & L & R). exists k. intros D HD H.
  assert (A : range_desc gs D 0 c).
  { apply (desc_range_iff n gs X Hn Hp Hr D M HD); [lia|]. intros i z _ Hzi Hi. destruct (H i z) as [_ H2]; [lia|lia|].
    rewrite (valley_row2 _ _ Hn) in H2. rewrite (Y1 i), (Y1 z) in H2 by lia. apply (desc_row _ _ Hn); lia. }
  assert (B : range_asc gs D c n).
  { apply (asc_range_iff n gs X Hn Hp Hr D M HD); [lia|]. intros i z Hc1 Hzi Hi. destruct (H i z) as [H1 _]; [lia|lia|].
    rewrite (valley_row _ _ Hn) in H1. rewrite (Y0 i), (Y0 z) in H1 by lia. apply (asc_row _ _ Hn); lia. }
  destruct (sub_chains k) as (m & Hm & C1 & C2). split.
  - apply (chain_pairs _ _ _ _ C1). intros s1 e1 s2 e2 I1 I2 H12. unfold g_ge, at_group. cbn [fst snd].
    apply A; try lia; [eapply in_firstn; exact I1|eapply in_firstn; exact I2|exact (L s2 e2 I2)].
  - apply (chain_pairs _ _ _ _ C2). intros s1 e1 s2 e2 I1 I2 H12. unfold g_ge, at_group. cbn [fst snd].
    apply B; try lia; [eapply in_skipn; exact I1|eapply in_skipn; exact I2|exact (R s1 e1 I1)|]. apply (chain_in _ _ _ _ _ C2) in I2. lia.
Qed.
Lemma split_ends k m : chain 0 m (firstn k gs) -> chain m n (skipn k gs) ->
  forall s e, In (s, e) gs -> ((e < m)%nat -> In (s, e) (firstn k gs)) /\ ((m <= e)%nat -> In (s, e) (skipn k gs)).
Proof.
  intros C1 C2 s e Hin. rewrite <- (firstn_skipn k gs) in Hin. apply in_app_or in Hin. split; intros Hlt; destruct Hin as [Hin|Hin]; auto.
  - apply (chain_in _ _ _ _ _ C2) in Hin. lia.
  - apply (chain_in _ _ _ _ _ C1) in Hin. lia.
Qed.
Lemma bends_peak k : exists y t, change_point n y t /\ forall D, bounded n D M -> bends_at k (g_le D) gs -> peak n D M y X.
Proof.
  destruct (sub_chains k) as (c & Hcn & C1 & C2). exists (cut_y c), (Z.of_nat c). split; [eapply cut_change_point; eauto|].
  intros D HD [B1 B2]. pose proof (split_ends k c C1 C2) as SE.
  assert (Ha : range_asc gs D 0 c).
  { intros s1 e1 s2 e2 I1 I2 _ Hlt Hm. apply (proj1 (chain_pairs _ _ _ _ C1) B1 s1 e1 s2 e2); [apply SE; [exact I1|lia]|apply SE; [exact I2|lia]|lia]. }
  assert (Hd : range_desc gs D c n).
  { intros s1 e1 s2 e2 I1 I2 Hm Hlt _. apply (proj1 (chain_pairs _ _ _ _ C2) B2 s1 e1 s2 e2); [apply SE; [exact I1|lia]|apply SE; [exact I2|lia]|lia]. }
  intros i z Hi Hz. rewrite (peak_row _ _ Hn), (peak_row2 _ _ Hn).
  pose proof (row_bounds n gs X Hn Hp Hr D M HD i ltac:(lia)). pose proof (row_bounds n gs X Hn Hp Hr D M HD z ltac:(lia)).
  pose proof (HM n Hn D M HD).
  assert (Gi : 0 <= M * (1 - X i i)) by (eapply guard_nonneg; eauto; lia). assert (Gz : 0 <= M * (1 - X z z)) by (eapply guard_nonneg; eauto; lia).
  unfold cut_y. destruct (Nat.ltb_spec i c) as [Hic|Hic]; destruct (Nat.ltb_spec z c) as [Hzc|Hzc]; try lia.
  - pose proof (proj2 (asc_range_iff n gs X Hn Hp Hr D M HD 0 c Hcn) Ha i z ltac:(lia) ltac:(lia) ltac:(lia)) as G. rewrite (asc_row _ _ Hn) in G. split; lia.
  - pose proof (proj2 (desc_range_iff n gs X Hn Hp Hr D M HD c n ltac:(lia)) Hd i z ltac:(lia) ltac:(lia) ltac:(lia)) as G. rewrite (desc_row _ _ Hn) in G. split; lia.
Qed.
Lemma bends_valley k : exists y t, change_point n y t /\ forall D, bounded n D M -> bends_at k (g_ge D) gs -> valley n D M y X.
Proof.
  destruct (sub_chains k) as (c & Hcn & C1 & C2). exists (cut_y c), (Z.of_nat c). split; [eapply cut_change_point; eauto|].
  intros D HD [B1 B2]. pose proof (split_ends k c C1 C2) as SE.
  assert (Ha : range_desc gs D 0 c).
  { intros s1 e1 s2 e2 I1 I2 _ Hlt Hm. apply (proj1 (chain_pairs _ _ _ _ C1) B1 s1 e1 s2 e2); [apply SE; [exact I1|lia]|apply SE; [exact I2|lia]|lia]. }
  assert (Hd : range_asc gs D c n).
  { intros s1 e1 s2 e2 I1 I2 Hm Hlt _. apply (proj1 (chain_pairs _ _ _ _ C2) B2 s1 e1 s2 e2); [apply SE; [exact I1|lia]|apply SE; [exact I2|lia]|lia]. }
  intros i z Hi Hz. rewrite (valley_row _ _ Hn), (valley_row2 _ _ Hn).
  pose proof (row_bounds n gs X Hn Hp Hr D M HD i ltac:(lia)). pose proof (row_bounds n gs X Hn Hp Hr D M HD z ltac:(lia)).
  pose proof (HM n Hn D M HD).
  assert (Gi : 0 <= M * (1 - X i i)) by (eapply guard_nonneg; eauto; lia). assert (Gz : 0 <= M * (1 - X z z)) by (eapply guard_nonneg; eauto; lia).
  unfold cut_y. destruct (Nat.ltb_spec i c) as [Hic|Hic]; destruct (Nat.ltb_spec z c) as [Hzc|Hzc]; try lia.
  - pose proof (proj2 (desc_range_iff n gs X Hn Hp Hr D M HD 0 c Hcn) Ha i z ltac:(lia) ltac:(lia) ltac:(lia)) as G. rewrite (desc_row _ _ Hn) in G. split; lia.
  - pose proof (proj2 (asc_range_iff n gs X Hn Hp Hr D M HD c n ltac:(lia)) Hd i z ltac:(lia) ltac:(lia) ltac:(lia)) as G. rewrite (asc_row _ _ Hn) in G. split; lia.
Qed.
End Bend.
Lemma bends_map {A B} (F : A -> B) (P : A -> A -> Prop) (Q : B -> B -> Prop) k l :
  (forall a b, In a l -> In b l -> P a b -> Q (F a) (F b)) -> bends_at k P l -> bends_at k Q (map F l).
Proof.
  intros H [H1 H2]. split; rewrite ?firstn_map, ?skipn_map.
  - eapply all_pairs_map; [|exact H1]. intros a b Ha Hb. apply H; eapply in_firstn; eauto.
  - eapply all_pairs_map; [|exact H2]. cbn. intros a b Ha Hb. apply H; eapply in_skipn; eauto.
Qed.
Lemma bends_unmap {A B} (F : A -> B) (P : A -> A -> Prop) (Q : B -> B -> Prop) k l :
  (forall a b, In a l -> In b l -> Q (F a) (F b) -> P a b) -> bends_at k Q (map F l) -> bends_at k P l.
Proof.
  intros H [H1 H2]. rewrite ?firstn_map, ?skipn_map in *. split.
  - eapply all_pairs_unmap; [|exact H1]. intros a b Ha Hb. apply H; eapply in_firstn; eauto.
  - eapply all_pairs_unmap; [|exact H2]. cbn. intros a b Ha Hb. apply H; eapply in_skipn; eauto.
Qed.

(** * Tables *)
Lemma fit_splits0_nondecr e o X : sb_env_ok e -> nondecreasing (map (se_rnd e) (fit_splits0 e o X)).
Proof.
  intros K. assert (G : nondecreasing (fit_splits0 e o X)).
  { unfold fit_splits0. destruct (sb_user o); [apply sorted_splits_nondecr|apply (ek_prebin _ K)]. }
  unfold nondecreasing in *. induction G as [|a l G IH Hf]; cbn [map]; constructor; [exact IH|].
  rewrite Forall_map. eapply Forall_impl; [|exact Hf]. intros b. apply (ek_rnd _ K).
Qed.
Lemma rows_ones xs ys (p : xval * yval -> bool) : length xs = length ys ->
  weight_of (fun r => p (row_x r, row_y r)) (rows xs ys (repeat 1 (length xs))) = Z.of_nat (length (filter p (combine xs ys))).
Proof.
  revert ys. induction xs as [|x xs IH]; intros [|y ys] H; cbn in H; try discriminate; [reflexivity|].
  unfold rows in *. cbn [length repeat combine weight_of filter row_x row_y row_w fst snd]. rewrite IH by lia.
  destruct (p (x, y)); cbn [length]; lia.
Qed.
Lemma weight_of_ext p q l : (forall r, p r = q r) -> weight_of p l = weight_of q l.
Proof. intros H. induction l as [|r l IH]; cbn; [reflexivity|]. now rewrite H, IH. Qed.

Lemma sp_disjoint_env e : sb_env_ok e -> sp_disjoint (se_sp e).
Proof. intros K. pose proof (ek_sp _ K). destruct (se_sp e); cbn; tauto. Qed.
Lemma prebin_splits_nondecr e o X w f : sb_env_ok e -> s_fit e o X w f -> nondecreasing (mp_splits (sf_prebins f)).
Proof. intros K F. eapply subseq_nondecr; [apply (rs_sub _ _ _ (ss_refined _ _ _ _ _ F))|now apply fit_splits0_nondecr]. Qed.

Lemma s_tables_len e o X w f : s_fit e o X w f -> length (sf_tables f) = length X.
Proof.
  intros F. pose proof (ss_tables _ _ _ _ _ F) as T. apply all_some_nth in T. destruct T as [L _]. rewrite L.
  rewrite (rs_cols _ _ _ (ss_refined _ _ _ _ _ F) (ss_ne _ _ _ _ _ F)). unfold scen_cols.
  rewrite length_map2; rewrite ?map_length; reflexivity.
Qed.
Lemma nsp e : sb_env_ok e -> n_special (se_sp e) = 1%nat.
Proof. intros K. pose proof (ek_sp _ K). destruct (se_sp e); cbn; tauto. Qed.

Lemma s_table_exact e o X w f s sc : sb_env_ok e -> (forall s, In s X -> scen_valid s) -> s_fit e o X w f ->
  nth_error X s = Some sc -> exists t, nth_error (sf_tables f) s = Some t /\
  length (fst t) = (S (length (sf_splits f)) + 2)%nat /\ length (snd t) = (S (length (sf_splits f)) + 2)%nat /\
  forall k, (k < S (length (sf_splits f)) + 2)%nat ->
    exists a b, nth_error (fst t) k = Some a /\ nth_error (snd t) k = Some b /\
      scen_count (sf_splits f) (se_sp e) sc true k a /\ scen_count (sf_splits f) (se_sp e) sc false k b.
Proof.
  intros K HV F Hs. destruct sc as [xs ys]. destruct (HV (xs, ys)) as [Hl HY]; [eapply nth_error_In; exact Hs|]. cbn [fst snd] in Hl, HY.
  destruct (scenario_as_fit e o X w f s xs ys K F HV Hs) as (fs & c & Et & Ec & Hsl & Hla & Hf & Es & Eso & _).
  pose proof (prebin_splits_nondecr _ _ _ _ _ K F) as Hnd.
  destruct (C03_table _ _ _ _ _ _ _ _ _ _ Hl (eq_sym (repeat_length _ _)) HY (ek_nan _ K) (sp_disjoint_env _ K) Hnd (answer_ok _ _ Hsl Hla) Hf) as (L1 & L2 & H).
  rewrite Es, (nsp _ K) in *. exists (f_nev fs, f_ev fs). split; [exact Et|]. cbn [fst snd]. split; [lia|]. split; [lia|].
  assert (Hns : nondecreasing (sf_splits f)) by (rewrite (ss_splits _ _ _ _ _ F); eapply subseq_nondecr; [apply select_subseq|exact Hnd]).
  intros k Hk. destruct (H k) as [H1 H2]; [lia|]. eexists _, _. split; [exact H1|]. split; [exact H2|].
  assert (G : forall ne, scen_count (sf_splits f) (se_sp e) (xs, ys) ne k (weight_of (goes_to (sf_splits f) (se_sp e) ne k) (rows xs ys (repeat 1 (length xs))))).
  { intros ne p Hpp. cbn [fst snd]. rewrite <- (rows_ones xs ys p Hl). apply weight_of_ext. intros r. unfold goes_to, cls_b.
    pose proof (C25_empirical (sf_splits f) (se_sp e) (row_x r) k Hns (sp_disjoint_env _ K) (ek_nan _ K)) as Q.
    apply eq_true_iff_eq. rewrite Hpp, andb_true_iff, eqb_true_iff, <- Q.
    destruct (transform_indices _ _ _ _ _) as [z|ex]; [rewrite Z.eqb_eq|]; split; intros [A B]; split; auto; try congruence; try discriminate. }
  split; apply G.
Qed.

Lemma add_tables_nth l n : (forall t, In t l -> length t = n) -> l <> [] ->
  length (add_tables l) = n /\ forall k, (k < n)%nat -> nth_error (add_tables l) k = Some (zsum (map (fun t => nth k t 0) l)).
Proof.
  intros H Hne. destruct l as [|t r]; [congruence|]. clear Hne. cbn [add_tables].
  assert (G : forall r t, (forall u, In u (t :: r) -> length u = n) -> length (fold_left (map2 Z.add) r t) = n /\
    forall k, (k < n)%nat -> nth_error (fold_left (map2 Z.add) r t) k = Some (nth k t 0 + zsum (map (fun t => nth k t 0) r))).
  { clear. induction r as [|u r IH]; intros t H; cbn [fold_left].
    - pose proof (H t (or_introl eq_refl)). split; [assumption|]. intros k Hk. cbn [map zsum]. rewrite Z.add_0_r. apply nth_error_nth'. lia.
    - pose proof (H t (or_introl eq_refl)) as Ht. pose proof (H u (or_intror (or_introl eq_refl))) as Hu.
      destruct (IH (map2 Z.add t u)) as [L E].
      + intros v [<-|Hv]; [rewrite length_map2; lia|apply H; right; now right].
      + split; [exact L|]. intros k Hk. rewrite (E k Hk). f_equal. cbn [map zsum].
        assert (E2 : nth k (map2 Z.add t u) 0 = nth k t 0 + nth k u 0); [|lia].
        apply nth_error_nth. apply nth_error_map2; apply nth_error_nth'; lia. }
  destruct (G r t H) as [L E]. split; [exact L|]. intros k Hk. rewrite (E k Hk). reflexivity.
Qed.

Lemma subseq_length_le {A} (a b : list A) : subseq a b -> (length a <= length b)%nat.
Proof. induction 1; cbn; lia. Qed.
Lemma subseq_length_eq {A} (a b : list A) : subseq a b -> length a = length b -> a = b.
Proof.
  induction 1 as [l|x a b H IH|x a b H IH]; cbn; intros E.
  - destruct l; [reflexivity|discriminate].
  - f_equal. apply IH. lia.
  - apply subseq_length_le in H. lia.
Qed.
(** * Requests *)
Lemma s_groups e o X w f M g Xm : sb_env_ok e -> (forall s, In s X -> scen_valid s) -> s_fit e o X w f -> s_solved e f M g Xm ->
  let n := S (length (mp_splits (sf_prebins f))) in
  exists gs, partition n gs /\ describes n gs Xm /\ length gs = S (length (sf_splits f)) /\
  (forall i s, nth_error (mp_splits (sf_prebins f)) i = Some s -> (exists a, In (a, i) gs) -> In s (sf_splits f)) /\
  length (pr_cols (sf_problem f)) = length X /\
  (forall c, In c (pr_cols (sf_problem f)) -> length (fst c) = n /\ length (snd c) = n /\ pos_list (fst c) /\ pos_list (snd c)) /\
  map (bins_of f) (sf_tables f) = map (fun c => rows_of (fst c) (snd c) gs) (pr_cols (sf_problem f)).
Proof.
  intros K HV F [Hsol HF] n. assert (HS : structural n Xm) by (destruct HF as (A & B & C & _); repeat split; assumption).
  destruct (structural_partition n Xm ltac:(unfold n; lia) HS) as (gs & Hp & Hr). exists gs.
  split; [exact Hp|]. split; [exact Hr|].
  assert (Lc : length (pr_cols (sf_problem f)) = length X).
  { rewrite (ss_cols _ _ _ _ _ F), (rs_cols _ _ _ (ss_refined _ _ _ _ _ F) (ss_ne _ _ _ _ _ F)). unfold scen_cols. now rewrite !map_length. }
  assert (Hn1 : (1 < n)%nat) by (unfold n; pose proof (ss_ne _ _ _ _ _ F); destruct (mp_splits (sf_prebins f)); [congruence|cbn; lia]).
  assert (ONE : forall s xs ys, nth_error X s = Some (xs, ys) -> exists fs c, nth_error (sf_tables f) s = Some (f_nev fs, f_ev fs) /\
     nth_error (pr_cols (sf_problem f)) s = Some c /\ f_splits fs = sf_splits f /\ pos_list (fst c) /\ pos_list (snd c) /\
     length (fst c) = n /\ length (snd c) = n /\
     S (length (sf_splits f)) = length gs /\ clean_rows fs = rows_of (fst c) (snd c) gs /\
     (forall i s, nth_error (mp_splits (sf_prebins f)) i = Some s -> (exists a, In (a, i) gs) -> In s (sf_splits f))).
  { intros s xs ys Hs. destruct (scenario_as_fit e o X w f s xs ys K F HV Hs) as (fs & c & Et & Ec & Hsl & Hla & Hf & Es & Eso & En & Ee & L1 & L2).
    exists fs, c. split; [exact Et|]. split; [exact Ec|]. split; [exact Es|].
    assert (Hw1 : forall v, In v (repeat 1 (length xs)) -> 0 <= v) by (intros v Hv; apply repeat_spec in Hv; lia).
    assert (PP := fit_pos 1 IV _ _ _ _ _ _ _ _ _ Z.lt_0_1 Hw1 (or_introl eq_refl) Hf).
    rewrite En, Ee in PP. split; [apply PP|]. split; [apply PP|]. split; [exact L1|]. split; [exact L2|].
    unfold fit_numerical in Hf. destruct (compute_prebins _ _ _ _ _ _ _ _ _) as [[pb|ex]|] eqn:Ep; try discriminate.
    injection Hf as Hf. apply compute_prebins_refined in Ep.
    assert (Hpb : f_prebins fs = pb).
    { unfold finish_fit in Hf. cbv zeta in Hf.
      repeat match type of Hf with context [match ?x with Some _ => _ | None => _ end] => destruct x; try discriminate end.
      injection Hf as <-. reflexivity. }
    rewrite Hpb in *.
    assert (Hlen : length (pb_nev pb) = length (pb_ev pb)) by (rewrite En, Ee; lia).
    assert (Hps : pb_splits pb = mp_splits (sf_prebins f)).
    { pose proof (rf_sub _ _ _ _ _ Ep) as Sb. apply subseq_length_eq; [exact Sb|].
      pose proof (rf_nev _ _ _ _ _ Ep) as E1. destruct (pb_splits pb); [rewrite En in E1; rewrite E1 in L1; discriminate|].
      rewrite <- En, E1, length_counts in L1. unfold n in L1. lia. }
    destruct (finish_fit_groups 1 _ _ _ pb fs Hf Hlen) with (X := Xm) (gs := gs) as (E & Hnb & Hrows & Hk).
    - intros E. rewrite (rf_nev _ _ _ _ _ Ep), E. reflexivity.
    - intros E. rewrite En, L1, Hps. reflexivity.
    - rewrite En, L1. exact Hn1.
    - rewrite En, L1. unfold answer. rewrite L1, Nat.eqb_refl. rewrite (ss_sol _ _ _ _ _ F). exact Hsol.
    - rewrite En, L1. exact Hp.
    - rewrite En, L1. exact Hr.
    - rewrite Es in *. split; [exact Hnb|]. rewrite En, Ee in Hrows. split; [exact Hrows|]. rewrite Hps in Hk. exact Hk. }
  assert (HX : exists xs ys, nth_error X 0 = Some (xs, ys)).
  { pose proof (ss_X _ _ _ _ _ F). destruct X as [|[xs ys] X']; [congruence|]. exists xs, ys. reflexivity. }
  destruct HX as (xs0 & ys0 & HX0). destruct (ONE _ _ _ HX0) as (fs0 & c0 & _ & _ & _ & _ & _ & _ & _ & Hnb & _ & Hk).
  split; [lia|]. split; [exact Hk|]. split; [exact Lc|]. split.
  - intros c Hc. apply In_nth_error in Hc. destruct Hc as (s & Hc).
    destruct (nth_error X s) as [[xs ys]|] eqn:Hs.
    + destruct (ONE _ _ _ Hs) as (fs & c' & _ & Ec & _ & P1 & P2 & L1 & L2 & _). rewrite Hc in Ec. injection Ec as <-. auto.
    + apply nth_error_None in Hs. assert (s < length (pr_cols (sf_problem f)))%nat by (apply nth_error_Some; congruence). lia.
  - apply nth_error_ext. intros s. rewrite !nth_error_map. pose proof (s_tables_len _ _ _ _ _ F) as LT.
    destruct (nth_error X s) as [[xs ys]|] eqn:Hs.
    + destruct (ONE _ _ _ Hs) as (fs & c & Et & Ec & Es & _ & _ & _ & _ & _ & ER & _). rewrite Et, Ec. cbn [option_map]. f_equal.
      rewrite <- ER. unfold bins_of, clean_rows. cbn [fst snd]. now rewrite Es.
    + apply nth_error_None in Hs. assert (E1 : nth_error (sf_tables f) s = None) by (apply nth_error_None; lia).
      assert (E2 : nth_error (pr_cols (sf_problem f)) s = None) by (apply nth_error_None; lia). now rewrite E1, E2.
Qed.
