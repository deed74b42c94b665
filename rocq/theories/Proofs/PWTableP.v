From Coq Require Import List ZArith Reals Bool Arith Lia Lra.
From Verif Require Import Model.Arr Model.Core Model.Metrics Model.MultiT Model.MultiTable Model.Cont Model.ContTable Model.PWLife Model.PWTable
  Spec.CoreSpec Spec.MetricsSpec Spec.MultiTableSpec Spec.ContTableSpec Spec.PWTableSpec
  Proofs.ArrP Proofs.MetricsP Proofs.MetricsQ Proofs.MultiTableR Proofs.ContTableP.
Import ListNotations.
Open Scope Z_scope.

Lemma laid_len {A} sp splits (rows bins specials : list A) m : laid_out sp splits rows bins specials m ->
  length rows = (S (length splits) + S (pw_n_specials sp))%nat /\ (length rows - S (pw_n_specials sp) = length bins)%nat.
Proof.
  intros (-> & B & SL). rewrite !app_length. cbn [length]. unfold special_row_count in SL. unfold pw_n_specials. lia.
Qed.
Lemma lastn_app {A} (a b : list A) : lastn (length b) (a ++ b) = b.
Proof. unfold lastn. rewrite app_length. replace (length a + length b - length b)%nat with (length a) by lia. rewrite skipn_app, skipn_all, Nat.sub_diag. reflexivity. Qed.
Lemma fits_ok {A} sp splits (rows bins specials : list A) m coef n : laid_out sp splits rows bins specials m -> coef_of splits coef n ->
  fits_index sp splits (length rows) coef = true.
Proof.
  intros L [C _]. destruct (laid_len _ _ _ _ _ _ L) as [E _]. unfold fits_index. rewrite E, Nat.eqb_refl. cbn [andb].
  destruct coef; [reflexivity|]. now rewrite C, Nat.eqb_refl.
Qed.
Lemma coef_nth {A} (mean : A -> option R) sp splits rows bins specials m coef n i : laid_out sp splits rows bins specials m -> coef_of splits coef n ->
  (i < n)%nat ->
  nth_error (coef_columns (S (pw_n_specials sp)) coef (map mean rows)) i =
  Some (map (fun c => Some (nth i c 0%R)) coef ++ (if (i =? 0)%nat then map mean (specials ++ [m]) else map (fun _ => Some 0%R) (specials ++ [m]))).
Proof.
  intros L [C F] H. pose proof L as (-> & B & SL). unfold coef_columns.
  assert (N : match coef with [] => 0%nat | c :: _ => length c end = n).
  { destruct coef as [|c coef]; [discriminate C|]. apply F. left. reflexivity. }
  rewrite N.
  assert (Sq : nth_error (seq 0 n) i = Some i). { rewrite (nth_error_nth' _ 0%nat) by (now rewrite seq_length). f_equal. rewrite seq_nth; lia. }
  rewrite (map_nth_error _ _ _ Sq). f_equal. f_equal.
  assert (E : S (pw_n_specials sp) = length (specials ++ [m])). { rewrite app_length. cbn [length]. unfold special_row_count in SL. unfold pw_n_specials. lia. }
  destruct (i =? 0)%nat.
  - rewrite map_app, E, <- (map_length mean (specials ++ [m])). apply lastn_app.
  - rewrite E. generalize (specials ++ [m]). intros l. induction l as [|a l IH]; [reflexivity|]. cbn [length repeat map]. now rewrite IH.
Qed.
Lemma coef_len n_extra coef means splits n : coef_of splits coef n -> length (coef_columns n_extra coef means) = n.
Proof.
  intros [C F]. unfold coef_columns. rewrite map_length, seq_length. destruct coef as [|c coef]; [discriminate C|]. apply F. left. reflexivity.
Qed.
Lemma b_rate_shown r : shown_rate r (b_rate r).
Proof.
  unfold shown_rate, has_both, b_rate, b_count. destruct (Z.ltb_spec 0 (snd r)), (Z.ltb_spec 0 (fst r)); cbn [andb]; split; intros K; try reflexivity; try lia.
  rewrite plus_IZR. f_equal. ring.
Qed.
Lemma pc_mean_shown r : shown_mean r (pc_mean r).
Proof.
  unfold shown_mean, pc_mean. destruct (Z.ltb_spec 0 (r_n r)) as [H|H]; split.
  - intros _ s ->. reflexivity.
  - split; [intros _ ->; reflexivity|lia].
  - lia.
  - split; [lia|reflexivity].
Qed.

(** ** shares *)
Lemma b_total_eq rows : b_total rows = zsum (map b_count rows).
Proof.
  unfold b_total. induction rows as [|r rows IH]; [reflexivity|]. cbn [map]. unfold b_count at 1.
  change (zsum (fst r :: map fst rows)) with (fst r + zsum (map fst rows)). change (zsum (snd r :: map snd rows)) with (snd r + zsum (map snd rows)).
  change (zsum (snd r + fst r :: map b_count rows)) with (snd r + fst r + zsum (map b_count rows)). lia.
Qed.
Lemma zsum_ge l : (forall x, In x l -> 0 <= x) -> 0 <= zsum l /\ forall x, In x l -> x <= zsum l.
Proof.
  induction l as [|a l IH]; intros H; [split; [cbn; lia|intros x []]|].
  destruct (IH (fun x K => H x (or_intror K))) as [A B]. pose proof (H a (or_introl eq_refl)). change (zsum (a :: l)) with (a + zsum l).
  split; [lia|]. intros x [<-|K]; [lia|]. specialize (B x K). lia.
Qed.
Lemma b_shares_ok rows : counts_ok2 rows -> 0 < b_total rows ->
  (forall x, In x (map (b_share rows) rows) -> (0 <= x <= 1)%R) /\ rsum (map (b_share rows) rows) = 1%R.
Proof.
  intros C T. assert (T' : (0 < IZR (b_total rows))%R) by now apply IZR_lt.
  assert (CC : forall x, In x (map b_count rows) -> 0 <= x). { intros x K. apply in_map_iff in K. destruct K as (r & <- & I). specialize (C r I). unfold b_count. lia. }
  destruct (zsum_ge _ CC) as [_ B]. rewrite <- b_total_eq in B. split.
  - intros x K. apply in_map_iff in K. destruct K as (r & <- & I). unfold b_share.
    specialize (CC _ (in_map b_count _ _ I)). specialize (B _ (in_map b_count _ _ I)). apply IZR_le in CC, B. split.
    + apply Rmult_le_pos; [exact CC|]. left. now apply Rinv_0_lt_compat.
    + apply Rmult_le_reg_r with (IZR (b_total rows)); [exact T'|]. unfold Rdiv. rewrite Rmult_assoc, Rinv_l, Rmult_1_r, Rmult_1_l by lra. exact B.
  - assert (E : forall l, rsum (map (b_share rows) l) = (IZR (zsum (map b_count l)) / IZR (b_total rows))%R).
    { induction l as [|r l IH]; [cbn; unfold Rdiv; ring|]. cbn [map rsum]. rewrite IH. unfold b_share.
      change (zsum (b_count r :: map b_count l)) with (b_count r + zsum (map b_count l)). rewrite plus_IZR. field. lra. }
    rewrite E, <- b_total_eq. field. lra.
Qed.

(** ** analysis *)
Lemma consecutive_tests {A B} (test : A -> A -> B) rows : tests_of test rows (consecutive test rows).
Proof.
  split.
  - induction rows as [|a [|b rows] IH]; [reflexivity|reflexivity|]. cbn [consecutive length] in *. lia.
  - induction rows as [|a [|b rows] IH]; intros i x y H1 H2; [destruct i; discriminate H1|destruct i; discriminate H2|].
    cbn [consecutive]. destruct i as [|i].
    + injection H1 as <-. injection H2 as <-. reflexivity.
    + cbn [nth_error]. apply IH; assumption.
Qed.
Lemma compared_eq {A} (bins specials : list A) m : (1 <= length specials)%nat ->
  compared (bins ++ specials ++ [m]) = bins ++ firstn (length specials - 1) specials.
Proof.
  intros K. unfold compared. rewrite !app_length. cbn [length].
  replace (length bins + (length specials + 1) - 2)%nat with (length bins + (length specials - 1))%nat by lia.
  rewrite firstn_app_2. f_equal. rewrite firstn_app. replace (length specials - 1 - length specials)%nat with 0%nat by lia.
  rewrite firstn_O, app_nil_r. reflexivity.
Qed.
Lemma existsb_false_iff {A} (f : A -> bool) l : existsb f l = false <-> forall x, In x l -> f x = false.
Proof.
  split.
  - intros H x I. destruct (f x) eqn:E; [|reflexivity]. assert (K : existsb f l = true) by (apply existsb_exists; exists x; split; assumption). congruence.
  - intros H. induction l as [|a l IH]; [reflexivity|]. cbn. rewrite (H a (or_introl eq_refl)). apply IH. intros x I. apply H. right. exact I.
Qed.
Lemma zsum_nth_pairs (l : list (Z * Z)) k : nth k (map fst l) 0 + nth k (map snd l) 0 = nth k (map b_count l) 0.
Proof.
  revert k. induction l as [|r l IH]; intros [|k]; try reflexivity.
  - cbn. unfold b_count. lia.
  - cbn [map nth]. apply IH.
Qed.
(** Cramer's V of a list of rows is undefined exactly when a row has no record or a class has none *)
Lemma cramer_iff l : l <> [] -> counts_ok2 l ->
  (exists v, chi2_cramer_v (map fst l) (map snd l) = Ok v /\ (0 <= snd v <= 1)%R /\
     (forall r, In r l -> 0 < fst r + snd r) /\ (exists r, In r l /\ 0 < fst r) /\ (exists r, In r l /\ 0 < snd r)) \/
  (chi2_cramer_v (map fst l) (map snd l) = Err ValueError /\
     ((exists r, In r l /\ fst r + snd r = 0) \/ (forall r, In r l -> fst r = 0) \/ (forall r, In r l -> snd r = 0))).
Proof.
  intros NE C.
  destruct (existsb (fun r => fst r + snd r =? 0) l) eqn:E0; [|destruct (forallb (fun r => fst r =? 0) l) eqn:E1; [|destruct (forallb (fun r => snd r =? 0) l) eqn:E2]].
  - right. split.
    + apply existsb_exists in E0. destruct E0 as (r & I & E). apply Z.eqb_eq in E.
      destruct (In_nth_error _ _ I) as [k Hk]. assert (Lk : (k < length l)%nat) by (apply nth_error_Some; rewrite Hk; discriminate).
      assert (R0 : MultiT.mt_row [map fst l; map snd l] k = 0).
      { unfold MultiT.mt_row. cbn [map]. rewrite (nth_indep _ 0 (fst r)), (nth_indep (map snd l) 0 (snd r)) by (rewrite map_length; exact Lk).
        rewrite !map_nth, (nth_error_nth _ _ _ Hk). cbn. lia. }
      unfold chi2_cramer_v, chi2_contingency.
      replace (existsb _ (seq 0 (MultiT.mt_rows _))) with true; [reflexivity|]. symmetry. apply existsb_exists. exists k.
      split; [|now rewrite R0]. apply in_seq. unfold MultiT.mt_rows. rewrite map_length. lia.
    + left. apply existsb_exists in E0. destruct E0 as (r & I & E). exists r. split; [exact I|]. now apply Z.eqb_eq.
  - right. rewrite forallb_forall in E1. split.
    + unfold chi2_cramer_v, chi2_contingency.
      assert (Z0 : zsum (map fst l) = 0). { clear -E1. induction l as [|r l IH]; [reflexivity|]. cbn [map]. change (zsum (fst r :: map fst l)) with (fst r + zsum (map fst l)).
        pose proof (E1 r (or_introl eq_refl)) as K. apply Z.eqb_eq in K. rewrite IH; [lia|]. intros x I. apply E1. right. exact I. }
      cbn [length seq existsb nth]. rewrite Z0. cbn [Z.eqb orb]. rewrite orb_true_r. reflexivity.
    + right. left. intros r I. now apply Z.eqb_eq, E1.
  - right. rewrite forallb_forall in E2. split.
    + unfold chi2_cramer_v, chi2_contingency.
      assert (Z0 : zsum (map snd l) = 0). { clear -E2. induction l as [|r l IH]; [reflexivity|]. cbn [map]. change (zsum (snd r :: map snd l)) with (snd r + zsum (map snd l)).
        pose proof (E2 r (or_introl eq_refl)) as K. apply Z.eqb_eq in K. rewrite IH; [lia|]. intros x I. apply E2. right. exact I. }
      cbn [length seq existsb nth]. rewrite Z0. cbn [Z.eqb orb]. rewrite !orb_true_r. reflexivity.
    + right. right. intros r I. now apply Z.eqb_eq, E2.
  - left. rewrite existsb_false_iff in E0.
    assert (P0 : forall r, In r l -> 0 < fst r + snd r). { intros r I. specialize (C r I). specialize (E0 r I). apply Z.eqb_neq in E0. lia. }
    assert (X1 : exists r, In r l /\ 0 < fst r).
    { apply not_true_iff_false in E1. destruct (existsb (fun r => 0 <? fst r) l) eqn:EX.
      - apply existsb_exists in EX. destruct EX as (r & I & E). exists r. split; [exact I|]. now apply Z.ltb_lt.
      - exfalso. apply E1. apply forallb_forall. intros r I. rewrite existsb_false_iff in EX. specialize (EX r I). apply Z.ltb_ge in EX.
        specialize (C r I). apply Z.eqb_eq. lia. }
    assert (X2 : exists r, In r l /\ 0 < snd r).
    { apply not_true_iff_false in E2. destruct (existsb (fun r => 0 <? snd r) l) eqn:EX.
      - apply existsb_exists in EX. destruct EX as (r & I & E). exists r. split; [exact I|]. now apply Z.ltb_lt.
      - exfalso. apply E2. apply forallb_forall. intros r I. rewrite existsb_false_iff in EX. specialize (EX r I). apply Z.ltb_ge in EX.
        specialize (C r I). apply Z.eqb_eq. lia. }
    assert (ZP : forall f : Z * Z -> Z, (forall r, In r l -> 0 <= f r) -> (exists r, In r l /\ 0 < f r) -> 0 < zsum (map f l)).
    { intros f Hf (r & I & P). assert (G : forall x, In x (map f l) -> 0 <= x). { intros x K. apply in_map_iff in K. destruct K as (s & <- & J). now apply Hf. }
      destruct (zsum_ge _ G) as [_ B]. specialize (B _ (in_map f _ _ I)). lia. }
    destruct (cramer_binary (length l) (map fst l) (map snd l)) as (v & V & B & _).
    + split; [discriminate|]. intros col [<-|[<-|[]]]; rewrite map_length; (split; [reflexivity|]); split.
      * intros x K. apply in_map_iff in K. destruct K as (s & <- & J). apply (C s J).
      * apply ZP; [intros r I; apply (C r I)|exact X1].
      * intros x K. apply in_map_iff in K. destruct K as (s & <- & J). apply (C s J).
      * apply ZP; [intros r I; apply (C r I)|exact X2].
    + intros k Hk. unfold row_sum, at_row. apply IZR_lt. cbn [map zsum fold_right]. rewrite Z.add_0_r, zsum_nth_pairs.
      destruct l as [|r0 l']; [contradiction NE; reflexivity|].
      rewrite (nth_indep _ 0 (b_count r0)), map_nth by (rewrite map_length; exact Hk). pose proof (nth_In (r0 :: l') r0 Hk) as I.
      specialize (P0 _ I). unfold b_count. lia.
    + destruct l; [contradiction NE; reflexivity|cbn; lia].
    + exists (pearson (length l) [map fst l; map snd l], v). split; [exact V|]. split; [exact B|]. auto.
Qed.
Lemma consecutive_In {A B} (test : A -> A -> B) (P : B -> Prop) : (forall a b, P (test a b)) -> forall rows x, In x (consecutive test rows) -> P x.
Proof.
  intros H rows. induction rows as [|a [|b rows] IH]; intros x K; [destruct K|destruct K|]. cbn [consecutive] in K. destruct K as [<-|K]; [apply H|now apply IH].
Qed.
Lemma b_quality_range test iv rows : counts_ok2 rows -> 0 < b_total rows -> (forall a b, (0 <= test a b <= 1)%R) -> (0 <= iv)%R ->
  (0 <= b_quality test iv rows <= 1)%R.
Proof.
  intros C T H I. destruct (b_shares_ok rows C T) as [A B]. apply quality_bounds; [exact I| |exact (proj2 (hhi_bounds _ A B))].
  apply consecutive_In. exact H.
Qed.
Lemma c_shares_ok rows : (forall r, In r rows -> 0 <= r_n r) -> 0 < zsum (map r_n rows) ->
  (forall x, In x (map (ct_share rows) rows) -> (0 <= x <= 1)%R) /\ rsum (map (ct_share rows) rows) = 1%R.
Proof.
  intros C T. assert (T' : (0 < ct_records rows)%R) by (unfold ct_records; now apply IZR_lt).
  assert (CC : forall x, In x (map r_n rows) -> 0 <= x). { intros x K. apply in_map_iff in K. destruct K as (r & <- & I). now apply C. }
  destruct (zsum_ge _ CC) as [_ B]. split.
  - intros x K. apply in_map_iff in K. destruct K as (r & <- & I). unfold ct_share.
    specialize (CC _ (in_map r_n _ _ I)). specialize (B _ (in_map r_n _ _ I)). apply IZR_le in CC, B. split.
    + apply Rmult_le_pos; [exact CC|]. left. now apply Rinv_0_lt_compat.
    + apply Rmult_le_reg_r with (ct_records rows); [exact T'|]. unfold Rdiv. rewrite Rmult_assoc, Rinv_l, Rmult_1_r, Rmult_1_l by lra. exact B.
  - assert (E : forall l, rsum (map (ct_share rows) l) = (IZR (zsum (map r_n l)) / ct_records rows)%R).
    { induction l as [|r l IH]; [cbn; unfold Rdiv; ring|]. cbn [map rsum]. rewrite IH. unfold ct_share.
      change (zsum (r_n r :: map r_n l)) with (r_n r + zsum (map r_n l)). rewrite plus_IZR. field. lra. }
    rewrite E. unfold ct_records. field. unfold ct_records in T'. lra.
Qed.
Lemma no_nan_some l pv : no_nan l = Some pv -> l = map Some pv.
Proof.
  revert pv. induction l as [|[a|] l IH]; intros pv H; cbn in H; [injection H as <-; reflexivity| |discriminate].
  destruct (no_nan l) as [q|]; [|discriminate]. injection H as <-. cbn. now rewrite (IH q eq_refl).
Qed.
Lemma no_nan_none l : no_nan l = None <-> In None l.
Proof.
  induction l as [|[a|] l IH].
  - split; [discriminate|intros []].
  - cbn [no_nan In]. destruct (no_nan l) as [q|]; cbn [option_map].
    + split; [discriminate|]. intros [K|K]; [discriminate K|]. apply IH in K. discriminate K.
    + split; [|reflexivity]. intros _. right. now apply IH.
  - split; [intros _; left; reflexivity|reflexivity].
Qed.
Lemma c_quality_range test rows q : (forall r, In r rows -> 0 <= r_n r) -> 0 < zsum (map r_n rows) ->
  (forall a b p, test a b = Some p -> (0 <= p <= 1)%R) -> c_quality test rows = Some q -> (0 <= q <= 1)%R.
Proof.
  intros C T H Q. unfold c_quality in Q. destruct (no_nan (c_pvalues test rows)) as [pv|] eqn:E; [|discriminate]. injection Q as <-.
  destruct (c_shares_ok rows C T) as [A B]. apply cont_quality_bounds; [lra| |exact (proj2 (hhi_bounds _ A B))].
  intros p I. apply no_nan_some in E. assert (K : In (Some p) (c_pvalues test rows)) by (rewrite E; now apply in_map).
  revert K. unfold c_pvalues.
  assert (G : forall l v, In v (consecutive test l) -> forall p, v = Some p -> (0 <= p <= 1)%R).
  { intros l. apply (consecutive_In test (fun v => forall p, v = Some p -> (0 <= p <= 1)%R)). intros a b p0 K0. exact (H _ _ _ K0). }
  intros K. exact (G _ _ K p eq_refl).
Qed.

(** ** the table object *)
Lemma tab_step_keeps tt b c : tb_sp (fst (tab_step tt b c)) = tb_sp b /\ tb_t (fst (tab_step tt b c)) = tb_t b.
Proof.
  unfold tab_step. destruct c, (pt_rows (tb_t b)); repeat match goal with |- context [if ?x then _ else _] => destruct x end; try (split; reflexivity).
  - destruct (build_bin _ _ _ _ _); split; reflexivity.
  - destruct (build_cont _ _ _ _ _); split; reflexivity.
  - destruct (b_cramer _); split; reflexivity.
Qed.
Lemma tab_step_built tt b c : tb_built (fst (tab_step tt b c)) = true <-> tb_built b = true \/ (t_is_build c /\ exists v, snd (tab_step tt b c) = Ok v).
Proof.
  assert (D : forall P : Prop, tb_built b = true <-> tb_built b = true \/ (P /\ exists v : tabval, (Err ValueError : res tabval) = Ok v)).
  { intros P. split; [tauto|]. intros [K|[_ [v K]]]; [exact K|discriminate K]. }
  unfold tab_step. destruct c as [dok tok tot|v|i|].
  - assert (G : t_is_build (TBuild dok tok tot)) by (eexists _, _, _; reflexivity).
    destruct dok; cbn [negb]; [|cbn [fst snd]; apply D].
    destruct tok; cbn [negb]; [|cbn [fst snd]; split; [tauto|intros [K|[_ [v K]]]; [exact K|discriminate K]]].
    destruct (match pt_rows (tb_t b) with BRows _ => _ | CRows _ => _ end) as [f|k]; cbn [fst snd tb_built].
    + split; [|reflexivity]. intros _. right. split; [exact G|eexists; reflexivity].
    + split; [tauto|intros [K|[_ [v K]]]; [exact K|discriminate K]].
  - assert (N : ~ t_is_build (TAnalysis v)) by (intros (a & b' & d & K); discriminate K).
    destruct (pt_rows (tb_t b)); destruct (tb_built b) eqn:EB; cbn [negb fst snd]; rewrite ?EB;
      try (split; [tauto|intros [K|[K _]]; [exact K|contradiction]]).
    destruct v; cbn [negb]; [destruct (b_cramer l)|]; cbn [fst tb_built]; rewrite ?EB; split; tauto.
  - assert (N : ~ t_is_build (TStatistic i)) by (intros (a & b' & d & K); discriminate K).
    destruct (pt_rows (tb_t b)); cbn [fst]; split; tauto.
  - assert (N : ~ t_is_build TQuality) by (intros (a & b' & d & K); discriminate K).
    destruct (pt_rows (tb_t b)); cbn [fst]; split; tauto.
Qed.
Lemma tab_step_quality tt b c : is_binary (tb_t b) ->
  (tb_quality (fst (tab_step tt b c)) <> None <-> tb_quality b <> None \/ (t_is_analysis c /\ exists v, snd (tab_step tt b c) = Ok v)).
Proof.
  intros [l L]. unfold tab_step. rewrite L. destruct c as [dok tok tot|v|i|].
  - assert (N : ~ t_is_analysis (TBuild dok tok tot)) by (intros (a & K); discriminate K).
    destruct dok; cbn [negb fst]; [|split; tauto]. destruct tok; cbn [negb fst]; [|split; tauto].
    destruct (build_bin _ _ _ _ _); cbn [fst tb_quality]; split; tauto.
  - assert (G : t_is_analysis (TAnalysis v)) by (eexists; reflexivity).
    destruct (tb_built b); cbn [negb fst snd]; [|split; [tauto|intros [K|[_ [w K]]]; [exact K|discriminate K]]].
    destruct v; cbn [negb fst snd]; [|split; [tauto|intros [K|[_ [w K]]]; [exact K|discriminate K]]].
    destruct (b_cramer l); cbn [fst snd tb_quality]; [|split; [tauto|intros [K|[_ [w K]]]; [exact K|discriminate K]]].
    split; [|discriminate]. intros _. right. split; [exact G|eexists; reflexivity].
  - assert (N : ~ t_is_analysis (TStatistic i)) by (intros (a & K); discriminate K). cbn [fst]. split; tauto.
  - assert (N : ~ t_is_analysis TQuality) by (intros (a & K); discriminate K). cbn [fst]. split; tauto.
Qed.
Lemma tab_exec_cons tt b c h b' outs : tab_exec tt b (c :: h) = (b', outs) ->
  exists b1 v l, tab_step tt b c = (b1, v) /\ tab_exec tt b1 h = (b', l) /\ outs = v :: l.
Proof.
  cbn [tab_exec]. destruct (tab_step tt b c) as [b1 v]. destruct (tab_exec tt b1 h) as [b2 l] eqn:E. intros H.
  injection H as <- <-. exists b1, v, l. repeat split; assumption || reflexivity.
Qed.
Lemma t_succeeded_cons P c h v l : t_succeeded P (c :: h) (v :: l) <-> (P c /\ exists a, v = Ok a) \/ t_succeeded P h l.
Proof.
  split.
  - intros (i & c' & a & H & Pc & O). destruct i as [|i]; cbn in H, O.
    + injection H as ->. injection O as ->. left. split; [exact Pc|exists a; reflexivity].
    + right. exists i, c', a. repeat split; assumption.
  - intros [[Pc [a ->]]|(i & c' & a & H & Pc & O)].
    + exists 0%nat, c, a. repeat split; assumption || reflexivity.
    + exists (S i), c', a. repeat split; assumption.
Qed.
Lemma tab_exec_facts tt h : forall b b' outs, tab_exec tt b h = (b', outs) ->
  tb_sp b' = tb_sp b /\ tb_t b' = tb_t b /\
  (tb_built b' = true <-> tb_built b = true \/ t_succeeded t_is_build h outs) /\
  (is_binary (tb_t b) -> (tb_quality b' <> None <-> tb_quality b <> None \/ t_succeeded t_is_analysis h outs)).
Proof.
  induction h as [|c h IH]; intros b b' outs H.
  - injection H as <- <-. split; [reflexivity|]. split; [reflexivity|].
    split; [|intros _]; (split; [tauto|intros [K|(i & c & a & K & _)]; [exact K|destruct i; discriminate K]]).
  - apply tab_exec_cons in H. destruct H as (b1 & v & l & ST & E & ->). destruct (IH _ _ _ E) as (A & B & C & D).
    destruct (tab_step_keeps tt b c) as [K1 K2]. pose proof (tab_step_built tt b c) as KB. pose proof (tab_step_quality tt b c) as KQ.
    rewrite ST in K1, K2, KB, KQ. cbn [fst snd] in *. rewrite A, B, K1, K2. split; [reflexivity|]. split; [reflexivity|].
    rewrite !t_succeeded_cons. split; [rewrite C, KB; tauto|]. intros BN. rewrite K2 in D. rewrite (D BN), (KQ BN). tauto.
Qed.

(** minimum and maximum without the NaN entries *)
Lemma nan_least l : (forall e, In e l -> e = ENaN \/ exists z, e = Fin z) ->
  (nan_fold emin l = ENaN /\ forall e, In e l -> e = ENaN) \/
  exists z, nan_fold emin l = Fin z /\ In (Fin z) l /\ forall y, In (Fin y) l -> (z <= y)%Z.
Proof.
  induction l as [|e l IH]; intros H; [left; split; [reflexivity|intros ? []]|]. cbn [nan_fold].
  destruct (IH (fun x Hx => H x (or_intror Hx))) as [[I1 I2]|(z & I1 & I2 & I3)]; destruct (H e (or_introl eq_refl)) as [-> |[y ->]]; cbn [is_nan]; rewrite ?I1.
  - left. split; [reflexivity|]. intros x [<-|Hx]; [reflexivity|now apply I2].
  - right. exists y. split; [reflexivity|]. split; [now left|]. intros x [E|Hx]; [injection E as ->; lia|]. apply I2 in Hx. discriminate.
  - right. exists z. split; [reflexivity|]. split; [now right|]. intros x [E|Hx]; [discriminate|now apply I3].
  - right. cbn [emin]. exists (Z.min y z). split; [reflexivity|]. split.
    + destruct (Z.min_spec y z) as [[_ ->]|[_ ->]]; [now left|now right].
    + intros x [E|Hx]; [injection E as ->; lia|]. apply I3 in Hx. lia.
Qed.
Lemma nan_most l : (forall e, In e l -> e = ENaN \/ exists z, e = Fin z) ->
  (nan_fold emax l = ENaN /\ forall e, In e l -> e = ENaN) \/
  exists z, nan_fold emax l = Fin z /\ In (Fin z) l /\ forall y, In (Fin y) l -> (y <= z)%Z.
Proof.
  induction l as [|e l IH]; intros H; [left; split; [reflexivity|intros ? []]|]. cbn [nan_fold].
  destruct (IH (fun x Hx => H x (or_intror Hx))) as [[I1 I2]|(z & I1 & I2 & I3)]; destruct (H e (or_introl eq_refl)) as [-> |[y ->]]; cbn [is_nan]; rewrite ?I1.
  - left. split; [reflexivity|]. intros x [<-|Hx]; [reflexivity|now apply I2].
  - right. exists y. split; [reflexivity|]. split; [now left|]. intros x [E|Hx]; [injection E as ->; lia|]. apply I2 in Hx. discriminate.
  - right. exists z. split; [reflexivity|]. split; [now right|]. intros x [E|Hx]; [discriminate|now apply I3].
  - right. cbn [emax]. exists (Z.max y z). split; [reflexivity|]. split.
    + destruct (Z.max_spec y z) as [[_ ->]|[_ ->]]; [now right|now left].
    + intros x [E|Hx]; [injection E as ->; lia|]. apply I3 in Hx. lia.
Qed.

(** ** every record counted once *)
From Verif Require Import Spec.PWLifeSpec Proofs.CoreP.
Definition cnt {A} (P : A -> bool) (l : list A) : Z := Z.of_nat (length (filter P l)).
Definition b2z (b : bool) : Z := if b then 1 else 0.
Lemma cnt_cons {A} (P : A -> bool) a l : cnt P (a :: l) = b2z (P a) + cnt P l.
Proof. unfold cnt. cbn [filter]. destruct (P a); cbn [length b2z]; lia. Qed.
Lemma cnt_rows {A} (P : nat -> A -> bool) (ks : list nat) a l :
  zsum (map (fun j => cnt (P j) (a :: l)) ks) = zsum (map (fun j => b2z (P j a)) ks) + zsum (map (fun j => cnt (P j) l) ks).
Proof.
  induction ks as [|k ks IH]; [reflexivity|]. cbn [map].
  change (zsum (cnt (P k) (a :: l) :: map (fun j => cnt (P j) (a :: l)) ks)) with (cnt (P k) (a :: l) + zsum (map (fun j => cnt (P j) (a :: l)) ks)).
  change (zsum (b2z (P k a) :: map (fun j => b2z (P j a)) ks)) with (b2z (P k a) + zsum (map (fun j => b2z (P j a)) ks)).
  change (zsum (cnt (P k) l :: map (fun j => cnt (P j) l) ks)) with (cnt (P k) l + zsum (map (fun j => cnt (P j) l) ks)).
  rewrite IH, cnt_cons. lia.
Qed.
Lemma cnt_partition {A} (C M Q : A -> bool) (P : nat -> A -> bool) ks l :
  (forall a, In a l -> b2z (C a) + zsum (map (fun j => b2z (P j a)) ks) + b2z (M a) = 1) ->
  cnt (fun a => C a && Q a) l + zsum (map (fun j => cnt (fun a => P j a && Q a) l) ks) + cnt (fun a => M a && Q a) l = cnt Q l.
Proof.
  induction l as [|a l IH]; intros H.
  - assert (Z0 : forall ks : list nat, zsum (map (fun j => cnt (fun a : A => P j a && Q a) []) ks) = 0) by (induction ks0 as [|k ks0 I]; [reflexivity|cbn; cbn in I; lia]).
    rewrite Z0. reflexivity.
  - rewrite (cnt_rows (fun j a => P j a && Q a)), !cnt_cons. specialize (IH (fun x K => H x (or_intror K))). specialize (H a (or_introl eq_refl)).
    destruct (Q a) eqn:E.
    + rewrite !andb_true_r. assert (X : map (fun j => b2z (P j a && true)) ks = map (fun j => b2z (P j a)) ks) by (apply map_ext; intros j; now rewrite andb_true_r).
      rewrite X. unfold b2z at 4. lia.
    + rewrite !andb_false_r. assert (X : zsum (map (fun j => b2z (P j a && false)) ks) = 0) by (induction ks as [|k ks' I]; [reflexivity|]; clear; induction (k :: ks') as [|k' k2 I]; [reflexivity|cbn [map]; rewrite andb_false_r; exact I]).
      rewrite X. cbn [b2z]. lia.
Qed.
Lemma b2z_sum_none (p : nat -> bool) ks : (forall j, In j ks -> p j = false) -> zsum (map (fun j => b2z (p j)) ks) = 0.
Proof.
  induction ks as [|k ks IH]; intros H; [reflexivity|]. cbn [map]. rewrite (H k (or_introl eq_refl)).
  change (0 + zsum (map (fun j => b2z (p j)) ks) = 0). rewrite IH; [reflexivity|]. intros j K. apply H. now right.
Qed.
Lemma b2z_sum_one (p : nat -> bool) ks j0 : NoDup ks -> In j0 ks -> p j0 = true -> (forall j, p j = true -> j = j0) -> zsum (map (fun j => b2z (p j)) ks) = 1.
Proof.
  induction ks as [|k ks IH]; intros ND I P U; [destruct I|]. inversion ND as [|? ? NI ND']; subst. cbn [map].
  change (b2z (p k) + zsum (map (fun j => b2z (p j)) ks) = 1). destruct I as [-> |I].
  - rewrite P, b2z_sum_none; [reflexivity|]. intros j K. destruct (p j) eqn:E; [|reflexivity]. apply U in E. subst j. contradiction.
  - rewrite (IH ND' I P U). destruct (p k) eqn:E; [|reflexivity]. apply U in E. subst k. contradiction.
Qed.
Lemma special_row_iff sp r : k_special sp (to_krec r) = true <-> exists j, (j < special_rows_count sp)%nat /\ in_special_row sp j r = true.
Proof.
  unfold k_special, in_special_row, special_rows_count, flat_codes, to_krec. cbn [k_x]. destruct sp as [|l|dd].
  - split; [discriminate|]. intros (j & _ & K). discriminate K.
  - split.
    + intros H. exists 0%nat. split; [lia|]. rewrite H. reflexivity.
    + intros (j & _ & K). apply andb_true_iff in K. apply K.
  - rewrite isin_In, in_concat. split.
    + intros (codes & I & J). apply in_map_iff in I. destruct I as (kv & <- & I). destruct (In_nth_error _ _ I) as [j Hj]. exists j.
      split; [apply nth_error_Some; congruence|]. rewrite Hj. now apply isin_In.
    + intros (j & Hj & K). destruct (nth_error dd j) as [kv|] eqn:E; [|discriminate K]. exists (snd kv). split; [apply in_map, (nth_error_In _ _ E)|now apply isin_In].
Qed.
Lemma one_row sp d r : one_row_each sp d -> In r (pd_recs d) ->
  b2z (k_clean sp (to_krec r)) + zsum (map (fun j => b2z (in_special_row sp j r)) (seq 0 (special_rows_count sp))) + b2z (is_missing r) = 1.
Proof.
  intros H I. destruct (H r I) as (T & N & U). clear H I.
  assert (M : k_missing (to_krec r) = is_missing r) by reflexivity. unfold k_clean. rewrite M.
  destruct (k_special sp (to_krec r)) eqn:S.
  - apply special_row_iff in S. destruct S as (j & J & P). rewrite (b2z_sum_one _ _ j); [|apply seq_NoDup|apply in_seq; lia|exact P|intros k K; now apply U].
    unfold is_missing. rewrite (N j P). destruct (snd r); [|contradiction T; reflexivity]. reflexivity.
  - rewrite b2z_sum_none; [destruct (is_missing r); reflexivity|]. intros j J. destruct (in_special_row sp j r) eqn:E; [|reflexivity].
    assert (K : k_special sp (to_krec r) = true) by (apply special_row_iff; exists j; split; [apply in_seq in J; lia|exact E]). congruence.
Qed.
Lemma seq_of_nth {A B} (l : list A) (f : A -> B) (g : nat -> B) : (forall j a, nth_error l j = Some a -> f a = g j) ->
  map f l = map g (seq 0 (length l)).
Proof.
  intros H. assert (G : forall n, (forall j a, nth_error l j = Some a -> f a = g (n + j)%nat) -> map f l = map g (seq n (length l))).
  { clear H. induction l as [|a l IH]; intros n H; [reflexivity|]. cbn [map length seq]. rewrite (H 0%nat a eq_refl), Nat.add_0_r. f_equal.
    apply IH. intros j b K. rewrite (H (S j) b K). f_equal. lia. }
  apply (G 0%nat). exact H.
Qed.
Lemma cnt_map {A B} (f : A -> B) P l : cnt P (map f l) = cnt (fun a => P (f a)) l.
Proof. induction l as [|a l IH]; [reflexivity|]. cbn [map]. now rewrite !cnt_cons, IH. Qed.
Lemma cnt_filter {A} (P Q : A -> bool) l : cnt P (filter Q l) = cnt (fun a => Q a && P a) l.
Proof. induction l as [|a l IH]; [reflexivity|]. cbn [filter]. rewrite cnt_cons. destruct (Q a); [rewrite cnt_cons|]; cbn [andb b2z]; rewrite IH; reflexivity. Qed.
Lemma cnt_ext {A} (P Q : A -> bool) l : (forall a, In a l -> P a = Q a) -> cnt P l = cnt Q l.
Proof. induction l as [|a l IH]; intros H; [reflexivity|]. rewrite !cnt_cons, (H a (or_introl eq_refl)), IH; [reflexivity|]. intros b K. apply H. now right. Qed.
(** records of the clean part with a property of the target *)
Lemma clean_cnt e d (f : Z -> bool) :
  cnt (fun xy => f (snd xy)) (clean_pairs e d) = cnt (fun r => k_clean (pe_special e) (to_krec r) && match snd r with Some y => f y | None => f 0 end) (pd_recs d).
Proof.
  unfold clean_pairs, recs. rewrite cnt_map, cnt_filter, cnt_map. apply cnt_ext. intros [x [y|]] _; reflexivity.
Qed.
