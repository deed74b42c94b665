(** C45 and C58: piecewise binning. *)
From Coq Require Import List ZArith Reals Lra Lia Bool.
From Verif Require Import Model.Arr Model.Core Model.Metrics Model.Piecewise Spec.CoreSpec Spec.PiecewiseSpec
  Proofs.ArrP Proofs.CoreP Proofs.FitP Proofs.MetricsP Proofs.PiecewiseP Proofs.PiecewiseFit.
Import ListNotations.
Open Scope R_scope.

Lemma nth_map2 {A B C} (f : A -> B -> C) a b i x y d :
  nth_error a i = Some x -> nth_error b i = Some y -> nth i (map2 f a b) d = f x y.
Proof.
  revert b i; induction a as [|a0 a IH]; intros [|b0 b] [|i] Ha Hb; try discriminate; cbn in *.
  - now injection Ha as ->; injection Hb as ->.
  - now apply IH.
Qed.
Lemma nth_error_map2 {A B C} (f : A -> B -> C) a b i x y :
  nth_error a i = Some x -> nth_error b i = Some y -> nth_error (map2 f a b) i = Some (f x y).
Proof.
  revert b i; induction a as [|a0 a IH]; intros [|b0 b] [|i] Ha Hb; try discriminate; cbn in *.
  - now injection Ha as ->; injection Hb as ->.
  - now apply IH.
Qed.

Lemma sp_rows_len sp c l : length (sp_rows sp c l) = n_special sp.
Proof. destruct sp; cbn; try reflexivity. apply map_length. Qed.

(** C45: event rates of clean values are the bin's polynomial, moved to the nearest value within the bounds. *)
Theorem C45_event_rate_within_bounds : forall val p sp xs ms mm lb ub,
  nondecreasing (p_splits p) -> bounds_ok lb ub ->
  exists out, pw_transform val p sp xs PWEventRate ms mm lb ub = Ok out /\ length out = length xs /\
  forall k z i ci, nth_error xs k = Some (XNum z) -> ~ In (XNum z) (flat_codes sp) ->
    in_bin_i (p_splits p) i z -> nth_error (p_c p) i = Some ci ->
    exists v, nth_error out k = Some (Fin v) /\ respects lb ub v /\ nearest lb ub (poly_at ci (val z)) v.
Proof.
  intros val p sp xs ms mm lb ub Hs Hb. unfold pw_transform, transform_binary_target.
  destruct mm; cbn [rbind]; eexists; (split; [reflexivity|]); (split; [apply map_length|]);
    intros k z i ci Hk Hz Hi Hc; rewrite nth_error_map, Hk; cbn [option_map];
    rewrite (proj2 (is_clean_num sp z) Hz), apply_clean by exact Hz;
    (eexists; split; [reflexivity|]);
    pose proof (clean_value_nearest val (p_splits p) (p_c p) lb ub z i ci Hs Hb Hi Hc) as H; split; [exact (proj1 H)|exact H|exact (proj1 H)|exact H].
Qed.
Print Assumptions C45_event_rate_within_bounds.

(** ... so a polynomial value that satisfies the bounds is returned unchanged *)
Theorem C45_event_rate_value : forall val p sp xs ms mm lb ub out k z i ci,
  nondecreasing (p_splits p) -> bounds_ok lb ub ->
  pw_transform val p sp xs PWEventRate ms mm lb ub = Ok out ->
  nth_error xs k = Some (XNum z) -> ~ In (XNum z) (flat_codes sp) ->
  in_bin_i (p_splits p) i z -> nth_error (p_c p) i = Some ci -> respects lb ub (poly_at ci (val z)) ->
  nth_error out k = Some (Fin (poly_at ci (val z))).
Proof.
  intros val p sp xs ms mm lb ub out k z i ci Hs Hb Ho Hk Hz Hi Hc Hr.
  destruct (C45_event_rate_within_bounds val p sp xs ms mm lb ub Hs Hb) as (out' & E & _ & H).
  rewrite E in Ho. injection Ho as ->. destruct (H k z i ci Hk Hz Hi Hc) as (v & Hv & _ & Hn).
  rewrite Hv. f_equal. f_equal. exact (nearest_inside _ _ _ _ Hn Hr).
Qed.
Print Assumptions C45_event_rate_value.

(** contradictory bounds are not reported: every clean value becomes ub, below lb *)
Theorem C45_crossed_bounds : forall val p sp xs ms mm l u out k z,
  u < l -> pw_transform val p sp xs PWEventRate ms mm (Some l) (Some u) = Ok out ->
  nth_error xs k = Some (XNum z) -> ~ In (XNum z) (flat_codes sp) -> nth_error out k = Some (Fin u).
Proof.
  intros val p sp xs ms mm l u out k z Hlu Ho Hk Hz. unfold pw_transform, transform_binary_target in Ho.
  destruct mm; cbn [rbind] in Ho; injection Ho as <-; rewrite nth_error_map, Hk; cbn [option_map];
    rewrite (proj2 (is_clean_num sp z) Hz), apply_clean by exact Hz; unfold clean_value; now rewrite clip_crossed.
Qed.
Print Assumptions C45_crossed_bounds.

(** WoE of clean values: the WoE of the bounded event rate, which is finite exactly when that rate is strictly between 0 and 1 *)
Theorem C45_woe_value : forall val p sp xs ms mm lb ub out k z i ci,
  nondecreasing (p_splits p) -> bounds_ok lb ub -> (0 < zsum (p_nev p))%Z -> (0 < zsum (p_ev p))%Z ->
  pw_transform val p sp xs PWWoe ms mm lb ub = Ok out ->
  nth_error xs k = Some (XNum z) -> ~ In (XNum z) (flat_codes sp) ->
  in_bin_i (p_splits p) i z -> nth_error (p_c p) i = Some ci ->
  exists er w, nearest lb ub (poly_at ci (val z)) er /\ nth_error out k = Some w /\
    (0 < er < 1 -> w = Fin (er_to_woe er (IZR (zsum (p_nev p))) (IZR (zsum (p_ev p))))) /\
    (er <= 0 \/ 1 <= er -> forall r, w <> Fin r).
Proof.
  intros val p sp xs ms mm lb ub out k z i ci Hs Hb Hn He Ho Hk Hz Hi Hc.
  apply IZR_lt in Hn, He.
  unfold pw_transform, transform_binary_target in Ho.
  assert (exists miss, out = map (fun x => let v := pw_apply val (p_splits p) (p_c p) lb ub sp ms mm
       (map (woe_f (IZR (zsum (p_nev p))) (IZR (zsum (p_ev p))))
          (map2 (fun e ne : Z => Fin (special_rate e ne)) (p_nev_special p) (p_ev_special p))) miss x in
       if is_clean sp x then woe_f (IZR (zsum (p_nev p))) (IZR (zsum (p_ev p))) v else v) xs) as [miss ->].
  { destruct mm; [destruct (woe_py _ _ _); [|discriminate]|]; cbn [rbind] in Ho; injection Ho as <-; eexists; reflexivity. }
  rewrite nth_error_map, Hk. cbn [option_map]. cbv zeta. rewrite (proj2 (is_clean_num sp z) Hz), apply_clean by exact Hz.
  exists (clean_value val (p_splits p) (p_c p) lb ub z). eexists.
  split; [now apply (clean_value_nearest _ _ _ _ _ _ i)|]. split; [reflexivity|]. cbn [woe_f]. split.
  - intros H. now apply woe_finite.
  - intros H. now apply woe_not_finite.
Qed.
Print Assumptions C45_woe_value.

(** ... and with bounds strictly between 0 and 1 the WoE lies between the WoE of ub and the WoE of lb *)
Theorem C45_woe_within_bounds : forall val p sp xs ms mm l u out k z i ci,
  nondecreasing (p_splits p) -> 0 < l -> l <= u -> u < 1 -> (0 < zsum (p_nev p))%Z -> (0 < zsum (p_ev p))%Z ->
  pw_transform val p sp xs PWWoe ms mm (Some l) (Some u) = Ok out ->
  nth_error xs k = Some (XNum z) -> ~ In (XNum z) (flat_codes sp) ->
  in_bin_i (p_splits p) i z -> nth_error (p_c p) i = Some ci ->
  exists w, nth_error out k = Some (Fin w) /\
    er_to_woe u (IZR (zsum (p_nev p))) (IZR (zsum (p_ev p))) <= w <= er_to_woe l (IZR (zsum (p_nev p))) (IZR (zsum (p_ev p))).
Proof.
  intros val p sp xs ms mm l u out k z i ci Hs Hl Hlu Hu Hn He Ho Hk Hz Hi Hc.
  destruct (C45_woe_value val p sp xs ms mm (Some l) (Some u) out k z i ci Hs) as (er & w & Hner & Hw & Hfin & _);
    try assumption; [intros ? ? [= <-] [= <-]; exact Hlu|].
  destruct Hner as [[H1 H2] _]. specialize (H1 l eq_refl). specialize (H2 u eq_refl).
  rewrite (Hfin (conj (Rlt_le_trans _ _ _ Hl H1) (Rle_lt_trans _ _ _ H2 Hu))) in Hw. eexists. split; [exact Hw|].
  apply IZR_lt in Hn, He.
  assert (Hmono : forall a b, 0 < a -> a <= b -> b < 1 ->
     er_to_woe b (IZR (zsum (p_nev p))) (IZR (zsum (p_ev p))) <= er_to_woe a (IZR (zsum (p_nev p))) (IZR (zsum (p_ev p)))).
  { intros a b Ha Hab Hb1. unfold er_to_woe.
    assert (P : 0 < (1 / b - 1) * IZR (zsum (p_ev p)) / IZR (zsum (p_nev p))).
    { assert (1 < / b) by (rewrite <- Rinv_1; apply Rinv_lt_contravar; lra).
      unfold Rdiv. apply Rmult_lt_0_compat; [|now apply Rinv_0_lt_compat]. apply Rmult_lt_0_compat; lra. }
    destruct (Req_EM_T a b) as [->|Hne]; [lra|]. left. apply ln_increasing; [exact P|].
    assert (/ b < / a) by (apply Rinv_lt_contravar; [apply Rmult_lt_0_compat|]; lra).
    unfold Rdiv. apply Rmult_lt_compat_r; [now apply Rinv_0_lt_compat|]. apply Rmult_lt_compat_r; lra. }
  split; apply Hmono; lra.
Qed.
Print Assumptions C45_woe_within_bounds.

(** Special and missing values: a numeric metric_special / metric_missing is returned as it is, whatever the bounds and metric. *)
Theorem C45_numeric_special_missing : forall val p sp xs m b1 b2 vs vm lb ub,
  sp_disjoint sp ->
  exists out, pw_transform val p sp xs m (Const b1 vs) (Const b2 vm) lb ub = Ok out /\
  forall k x, nth_error xs k = Some x ->
    (x = XNaN -> nth_error out k = Some (Fin vm)) /\
    (forall z, x = XNum z -> In x (flat_codes sp) -> nth_error out k = Some (Fin vs)).
Proof.
  intros val p sp xs m b1 b2 vs vm lb ub Hd. unfold pw_transform, transform_binary_target. cbn [rbind].
  eexists. split; [reflexivity|]. intros k x Hk. rewrite nth_error_map, Hk. cbn [option_map]. split.
  - intros ->. reflexivity.
  - intros z -> Hin. apply isin_In in Hin. destruct (special_index_ex sp _ Hin) as [i Hi].
    cbv zeta. rewrite (special_not_clean sp i _ Hi), (apply_special _ _ _ _ _ _ _ _ _ _ z i Hd Hi). reflexivity.
Qed.
Print Assumptions C45_numeric_special_missing.

(** so with the default arguments (0, 0) the output does not respect the bounds *)
Theorem C45_bounds_special_missing_refuted : exists val p sp xs out,
  pw_transform val p sp xs PWEventRate (Const true 0) (Const true 0) (Some (1/4)) (Some (3/4)) = Ok out /\
  exists k v, nth_error out k = Some (Fin v) /\ ~ respects (Some (1/4)) (Some (3/4)) v.
Proof.
  exists (fun _ => 0), {| p_splits := []; p_c := [[1/2]]; p_nev := [1; 0; 0]%Z; p_ev := [1; 0; 0]%Z;
     p_nev_special := [0%Z]; p_ev_special := [0%Z]; p_nev_missing := 0%Z; p_ev_missing := 0%Z |}, SpNone, [XNaN].
  eexists. split; [reflexivity|]. exists 0%nat, 0. split; [reflexivity|].
  intros [H _]. specialize (H _ eq_refl). lra.
Qed.
Print Assumptions C45_bounds_special_missing_refuted.

Lemma special_rate_swapped : forall val d solver fixed user pre coef sp xs ys p i z newx out k ms' lb ub,
  length xs = length ys -> ~ In YNaN ys -> ~ In XNaN (flat_codes sp) -> (forall a b, nondecreasing (pre a b)) -> solver_ok solver ->
  sp_disjoint sp -> special_index sp i (XNum z) ->
  pw_fit (inner_fit d solver fixed user pre) coef sp xs ys = Ok p ->
  pw_transform val p sp newx PWEventRate Empirical ms' lb ub = Ok out -> nth_error newx k = Some (XNum z) ->
  let events := n_code sp i false xs ys in let nonevents := n_code sp i true xs ys in
  nth_error out k = Some (Fin (special_rate nonevents events)) /\
  nth_error (pw_table_c0 p) (length (p_c p) + i) = Some (special_rate events nonevents).
Proof.
  intros val d solver fixed user pre coef sp xs ys p i z newx out k ms' lb ub Hl Hy Hc Hpre Hsol Hd Hi Hfit Ho Hk events nonevents.
  assert (Hlt := special_index_lt _ _ _ Hi).
  assert (Hsn : sp <> SpNone) by (intros ->; destruct Hi).
  destruct (pw_fit_special d solver fixed user pre coef sp xs ys p Hl Hy Hc Hpre Hsol Hfit i Hlt Hsn) as [E1 E2].
  fold events in E2. fold nonevents in E1.
  split.
  - unfold pw_transform, transform_binary_target in Ho.
    destruct ms'; cbn [rbind] in Ho; injection Ho as <-; rewrite nth_error_map, Hk; cbn [option_map];
      cbv zeta; rewrite (special_not_clean sp i _ Hi), (apply_special _ _ _ _ _ _ _ _ _ _ z i Hd Hi);
      unfold sval; rewrite map_id, (nth_map2 _ _ _ i nonevents events) by assumption; reflexivity.
  - unfold pw_table_c0. rewrite nth_error_app2 by (rewrite map_length; lia). rewrite map_length.
    replace (length (p_c p) + i - length (p_c p))%nat with i by lia.
    rewrite nth_error_app1.
    + rewrite (nth_error_map2 _ _ _ i events nonevents) by assumption. reflexivity.
    + rewrite length_map2 by (destruct (pw_fit_rows d solver fixed user pre coef sp xs ys p Hl Hy Hpre Hsol Hfit) as (_ & _ & _ & -> & -> & _);
        rewrite !sp_rows_len; reflexivity).
      apply nth_error_Some. congruence.
Qed.

(** C58: "empirical" special and missing rates. The value returned for a special code is the share of its NON-events (the code
    passes the two counts in the wrong order), while the binning table shows the event rate: the two add up to 1. *)
Theorem C58_empirical_special_is_nonevent_rate : forall val d solver fixed user pre coef sp xs ys p i z newx out k ms' lb ub,
  length xs = length ys -> ~ In YNaN ys -> ~ In XNaN (flat_codes sp) -> (forall a b, nondecreasing (pre a b)) -> solver_ok solver ->
  sp_disjoint sp -> special_index sp i (XNum z) ->
  pw_fit (inner_fit d solver fixed user pre) coef sp xs ys = Ok p ->
  pw_transform val p sp newx PWEventRate Empirical ms' lb ub = Ok out -> nth_error newx k = Some (XNum z) ->
  let events := n_code sp i false xs ys in let nonevents := n_code sp i true xs ys in
  (0 < events)%Z -> (0 < nonevents)%Z ->
  nth_error out k = Some (Fin (IZR nonevents / IZR (nonevents + events))) /\
  nth_error (pw_table_c0 p) (length (p_c p) + i) = Some (IZR events / IZR (events + nonevents)).
Proof.
  intros val d solver fixed user pre coef sp xs ys p i z newx out k ms' lb ub Hl Hy Hc Hpre Hsol Hd Hi Hfit Ho Hk events nonevents Hev Hnev.
  destruct (special_rate_swapped val d solver fixed user pre coef sp xs ys p i z newx out k ms' lb ub) as [A B]; auto.
  fold events nonevents in A, B. rewrite A, B.
  assert (SR : forall a b : Z, (0 < a)%Z -> (0 < b)%Z -> special_rate a b = IZR a / IZR (a + b)).
  { intros a b Ha Hb. unfold special_rate. replace (0 <? a)%Z with true by lia. replace (0 <? b)%Z with true by lia. reflexivity. }
  now rewrite !SR.
Qed.
Print Assumptions C58_empirical_special_is_nonevent_rate.

(** If all records of a special code are events, or all are non-events, both transform and the table give 0. *)
Theorem C58_empirical_special_pure_is_zero : forall val d solver fixed user pre coef sp xs ys p i z newx out k ms' lb ub,
  length xs = length ys -> ~ In YNaN ys -> ~ In XNaN (flat_codes sp) -> (forall a b, nondecreasing (pre a b)) -> solver_ok solver ->
  sp_disjoint sp -> special_index sp i (XNum z) ->
  pw_fit (inner_fit d solver fixed user pre) coef sp xs ys = Ok p ->
  pw_transform val p sp newx PWEventRate Empirical ms' lb ub = Ok out -> nth_error newx k = Some (XNum z) ->
  n_code sp i false xs ys = 0%Z \/ n_code sp i true xs ys = 0%Z ->
  nth_error out k = Some (Fin 0) /\ nth_error (pw_table_c0 p) (length (p_c p) + i) = Some 0.
Proof.
  intros val d solver fixed user pre coef sp xs ys p i z newx out k ms' lb ub Hl Hy Hc Hpre Hsol Hd Hi Hfit Ho Hk H0.
  destruct (special_rate_swapped val d solver fixed user pre coef sp xs ys p i z newx out k ms' lb ub) as [A B]; auto.
  rewrite A, B. unfold special_rate. destruct H0 as [-> | ->]; cbn [Z.ltb Z.compare andb]; rewrite ?andb_false_r; split; reflexivity.
Qed.
Print Assumptions C58_empirical_special_pure_is_zero.

Theorem C58_empirical_missing_is_nonevent_rate : forall val d solver fixed user pre coef sp xs ys p newx out k ms' lb ub,
  length xs = length ys -> ~ In YNaN ys -> ~ In XNaN (flat_codes sp) -> (forall a b, nondecreasing (pre a b)) -> solver_ok solver ->
  pw_fit (inner_fit d solver fixed user pre) coef sp xs ys = Ok p ->
  pw_transform val p sp newx PWEventRate ms' Empirical lb ub = Ok out -> nth_error newx k = Some XNaN ->
  let events := n_missing false xs ys in let nonevents := n_missing true xs ys in
  (0 < events)%Z -> (0 < nonevents)%Z ->
  nth_error out k = Some (Fin (IZR nonevents / IZR (nonevents + events))) /\
  nth_error (pw_table_c0 p) (length (p_c p) + n_special sp) = Some (IZR events / IZR (events + nonevents)).
Proof.
  intros val d solver fixed user pre coef sp xs ys p newx out k ms' lb ub Hl Hy Hc Hpre Hsol Hfit Ho Hk events nonevents Hev Hnev.
  destruct (pw_fit_missing d solver fixed user pre coef sp xs ys p Hl Hy Hpre Hsol Hfit) as [E1 E2].
  fold events in E2. fold nonevents in E1. split.
  - unfold pw_transform, transform_binary_target in Ho. cbn [rbind] in Ho; injection Ho as <-.
    rewrite nth_error_map, Hk. cbn [option_map is_clean x_isnull negb andb]. unfold pw_apply. cbn [x_isnull].
    unfold missing_rate. rewrite E1, E2. replace (0 <? nonevents + events)%Z with true by lia. reflexivity.
  - unfold pw_table_c0. rewrite nth_error_app2 by (rewrite map_length; lia). rewrite map_length.
    replace (length (p_c p) + n_special sp - length (p_c p))%nat with (n_special sp) by lia.
    assert (L : length (map2 (fun e ne => special_rate e ne) (p_ev_special p) (p_nev_special p)) = n_special sp).
    { destruct (pw_fit_rows d solver fixed user pre coef sp xs ys p Hl Hy Hpre Hsol Hfit) as (_ & _ & _ & -> & -> & _).
      rewrite length_map2; rewrite !sp_rows_len; reflexivity. }
    rewrite nth_error_app2 by lia. rewrite L, Nat.sub_diag. cbn [nth_error]. rewrite E1, E2.
    unfold special_rate. replace (0 <? events)%Z with true by lia. replace (0 <? nonevents)%Z with true by lia. reflexivity.
Qed.
Print Assumptions C58_empirical_missing_is_nonevent_rate.

(** a concrete fit: code -9 carries 3 events and 1 non-event, its true event rate is 3/4, transform returns 1/4 *)
Definition ex_solver : list Z -> list Z -> list bool := fun a _ => map (fun _ => true) a.
Definition ex_xs : list xval := [XNum (-9); XNum (-9); XNum (-9); XNum (-9); XNum 1; XNum 2; XNum 7; XNum 8; XNaN; XNaN].
Definition ex_ys : list yval := [Y1; Y1; Y1; Y0; Y0; Y1; Y0; Y1; Y0; Y1].
Definition ex_sp : special := SpList [XNum (-9)].
Definition ex_fit : res pwfitted :=
  pw_fit (inner_fit IV ex_solver None None (fun _ _ => [5%Z])) (fun _ _ _ => [[1/2]; [1/2]]) ex_sp ex_xs ex_ys.
Lemma ex_solver_ok : solver_ok ex_solver.
Proof.
  intros a b _ H. unfold ex_solver. rewrite map_length. split; [reflexivity|].
  destruct a as [|x a]; [cbn in H; lia|]. clear. revert x. induction a as [|y a IH]; intros x; [reflexivity|]. exact (IH y).
Qed.
Theorem C58_empirical_event_rate_refuted : exists val p out,
  ex_fit = Ok p /\ p_nev p = [1; 1; 1; 1]%Z /\ p_ev p = [1; 1; 3; 1]%Z /\
  pw_transform val p ex_sp [XNum (-9)] PWEventRate Empirical Empirical None None = Ok out /\
  out = [Fin (1/4)] /\ nth_error (pw_table_c0 p) 2 = Some (3/4).
Proof.
  exists IZR. eexists. eexists. split; [reflexivity|]. split; [reflexivity|]. split; [reflexivity|].
  split; [reflexivity|]. split; reflexivity.
Qed.
Print Assumptions C58_empirical_event_rate_refuted.
Example C58_hyps_met : length ex_xs = length ex_ys /\ ~ In YNaN ex_ys /\ ~ In XNaN (flat_codes ex_sp) /\ solver_ok ex_solver /\
  sp_disjoint ex_sp /\ special_index ex_sp 0 (XNum (-9)) /\ n_code ex_sp 0 false ex_xs ex_ys = 3%Z /\
  n_code ex_sp 0 true ex_xs ex_ys = 1%Z /\ n_missing false ex_xs ex_ys = 1%Z /\ n_missing true ex_xs ex_ys = 1%Z.
Proof.
  split; [reflexivity|]. split; [cbn; intuition discriminate|]. split; [cbn; intuition discriminate|]. split; [exact ex_solver_ok|].
  split; [exact I|]. split; [split; [reflexivity|now left]|]. split; [reflexivity|]. split; [reflexivity|]. split; reflexivity.
Qed.

(** WoE with metric_missing = "empirical" raises for every input when the training data had no missing non-events
    (in particular when it had no missing values at all) *)
Theorem C58_woe_empirical_missing_raises : forall val p sp xs ms lb ub,
  p_nev_missing p = 0%Z -> pw_transform val p sp xs PWWoe ms Empirical lb ub = Err OtherError.
Proof.
  intros val p sp xs ms lb ub H. unfold pw_transform, transform_binary_target, missing_rate. rewrite H.
  replace (if (0 <? 0 + p_ev_missing p)%Z then 0 / IZR (0 + p_ev_missing p) else 0) with 0.
  - unfold woe_py. destruct (Req_EM_T 0 0); [reflexivity|lra].
  - destruct (0 <? 0 + p_ev_missing p)%Z; [unfold Rdiv; lra|reflexivity].
Qed.
Print Assumptions C58_woe_empirical_missing_raises.

(** C45: the counts of the piecewise table are the training samples that fall in each row. *)
Theorem C45_table_counts : forall d solver fixed user pre coef sp xs ys p,
  length xs = length ys -> ~ In YNaN ys -> ~ In XNaN (flat_codes sp) -> sp_disjoint sp ->
  (forall a b, nondecreasing (pre a b)) -> solver_ok solver ->
  pw_fit (inner_fit d solver fixed user pre) coef sp xs ys = Ok p ->
  let n_rows := (S (length (p_splits p)) + n_special sp + 1)%nat in
  let count := fun nonevent k => Z.of_nat (length (filter (fun xy => Bool.eqb (y_is0 (snd xy)) nonevent &&
       match transform_indices (p_splits p) sp Empirical Empirical (fst xy) with
       | Ok j => Z.eqb j (Z.of_nat k) | Err _ => false end) (combine xs ys))) in
  nondecreasing (p_splits p) /\ length (p_nev p) = n_rows /\ length (p_ev p) = n_rows /\
  forall k, (k < n_rows)%nat -> nth_error (p_nev p) k = Some (count true k) /\ nth_error (p_ev p) k = Some (count false k) /\
    nth_error (pw_table_count p) k = Some (Z.of_nat (length (filter (fun x =>
       match transform_indices (p_splits p) sp Empirical Empirical x with
       | Ok j => Z.eqb j (Z.of_nat k) | Err _ => false end) xs))).
Proof.
  intros d solver fixed user pre coef sp xs ys p Hl Hy Hc Hd Hpre Hsol Hfit n_rows count.
  split; [exact (proj1 (pw_fit_rows d solver fixed user pre coef sp xs ys p Hl Hy Hpre Hsol Hfit))|].
  destruct (pw_fit_counts d solver fixed user pre coef sp xs ys p Hl Hy Hc Hpre Hsol Hfit Hd) as (L1 & L2 & H).
  split; [exact L1|]. split; [exact L2|]. intros k Hk.
  assert (G : nth_error (p_nev p) k = Some (count true k) /\ nth_error (p_ev p) k = Some (count false k)).
  { destruct (H k Hk) as [-> ->]. unfold count. rewrite !weight_of_filter, rows_ones, !weights_ones by exact Hl. split; reflexivity. }
  destruct G as [G1 G2]. split; [exact G1|]. split; [exact G2|]. unfold pw_table_count. rewrite (nth_error_map2 _ _ _ k _ _ G2 G1). f_equal.
  unfold count. clear - Hl. revert ys Hl. induction xs as [|x xs IH]; intros [|y ys] Hl; cbn in Hl; try discriminate; [reflexivity|].
  injection Hl as Hl. specialize (IH ys Hl). cbn [combine filter fst snd].
  destruct (match transform_indices _ _ _ _ x with Ok j => _ | Err _ => _ end); rewrite ?andb_true_r, ?andb_false_r; [|exact IH].
  destruct (y_is0 y); cbn [Bool.eqb length]; lia.
Qed.
Print Assumptions C45_table_counts.

Example C45_hyps_met : nondecreasing [5%Z] /\ in_bin_i [5%Z] 1 7 /\ bounds_ok (Some (1/4)) (Some (3/4)) /\ nondecreasing [] /\
  (exists p, ex_fit = Ok p /\ p_splits p = [5%Z] /\ nth_error (p_c p) 1 = Some [1/2] /\ zsum (p_nev p) = 4%Z /\ zsum (p_ev p) = 6%Z).
Proof.
  split; [repeat constructor|]. split; [cbn; split; [lia|exact I]|]. split; [intros ? ? [= <-] [= <-]; lra|]. split; [constructor|].
  eexists. split; [reflexivity|]. split; [reflexivity|]. split; [reflexivity|]. split; reflexivity.
Qed.

(** ** Continuous target: bounds, and empirical means in the right order *)
Theorem C45_cont_within_bounds : forall val splits c sp l xs ms mm lb ub k z i ci,
  nondecreasing splits -> bounds_ok lb ub ->
  nth_error xs k = Some (XNum z) -> ~ In (XNum z) (flat_codes sp) -> in_bin_i splits i z -> nth_error c i = Some ci ->
  exists v, nth_error (cpw_transform val splits c sp l xs ms mm lb ub) k = Some (Fin v) /\
    respects lb ub v /\ nearest lb ub (poly_at ci (val z)) v.
Proof.
  intros val splits c sp l xs ms mm lb ub k z i ci Hs Hb Hk Hz Hi Hc. unfold cpw_transform, transform_continuous_target.
  rewrite nth_error_map, Hk. cbn [option_map]. rewrite apply_clean by exact Hz. eexists. split; [reflexivity|].
  pose proof (clean_value_nearest val splits c lb ub z i ci Hs Hb Hi Hc) as H. split; [exact (proj1 H)|exact H].
Qed.
Print Assumptions C45_cont_within_bounds.

Lemma filter_all {A} (p : A -> bool) l : (forall a, In a l -> p a = true) -> filter p l = l.
Proof.
  induction l as [|a l IH]; intros H; [reflexivity|]. cbn. rewrite (H a (or_introl eq_refl)). f_equal. apply IH. intros; apply H; now right.
Qed.
Theorem C58_cont_empirical_means : forall val splits c sp l xs lb ub k x i,
  sp_disjoint sp -> nth_error xs k = Some x ->
  let mean := fun sel : list (xval * R) => rsum (map snd sel) / INR (length sel) in
  let coded := filter (fun xy => match sp with
       | SpNone => false | SpList cs => isin cs (fst xy)
       | SpDict d => match nth_error d i with Some kv => isin (snd kv) (fst xy) | None => false end end) l in
  let missing := filter (fun xy => x_isnull (fst xy)) l in
  let out := cpw_transform val splits c sp l xs Empirical Empirical lb ub in
  (forall z, x = XNum z -> special_index sp i x -> coded <> [] -> nth_error out k = Some (Fin (mean coded))) /\
  (x = XNaN -> missing <> [] -> nth_error out k = Some (Fin (mean missing))).
Proof.
  intros val splits c sp l xs lb ub k x i Hd Hk mean coded missing out.
  assert (M : forall sel : list (xval * R), sel <> [] -> mean_or_0 (snd (cont_info sel)) (fst (cont_info sel)) = mean sel).
  { intros sel Hne. unfold cont_info, mean_or_0, mean. cbn [fst snd]. rewrite INR_IZR_INZ.
    destruct sel; [congruence|]. cbn [length]. replace (0 <? Z.of_nat (S (length sel)))%Z with true by lia. reflexivity. }
  unfold out, cpw_transform, transform_continuous_target. rewrite nth_error_map, Hk. cbn [option_map]. split.
  - intros z -> Hi Hne. rewrite (apply_special _ _ _ _ _ _ _ _ _ _ z i Hd Hi). unfold sval. f_equal.
    assert (Hn : exists n s, nth_error (map snd (cont_special_info sp l)) i = Some s /\
        nth_error (map fst (cont_special_info sp l)) i = Some n /\ (n, s) = cont_info coded).
    { unfold cont_special_info, coded. destruct sp as [|cs|dd]; [destruct Hi| |].
      - destruct Hi as [-> _]. cbn [map nth_error flat_codes]. eexists; eexists; split; [reflexivity|]; split; reflexivity.
      - destruct Hi as (kv & Hkv & _). rewrite !nth_error_map, Hkv. cbn [option_map].
        eexists; eexists; split; [reflexivity|]; split; [reflexivity|]. rewrite <- surjective_pairing. f_equal.
        rewrite filter_filter. apply filter_ext. intros [x y]. cbn [fst].
        destruct (isin (snd kv) x) eqn:E; [|apply andb_false_r]. rewrite andb_true_r.
        apply isin_In in E. apply isin_In. cbn. apply in_concat. exists (snd kv). split; [|exact E]. apply in_map. eapply nth_error_In; eauto. }
    destruct Hn as (n & s & Hs & Hnn & Hpair). rewrite (nth_map2 _ _ _ i s n) by assumption.
    f_equal. rewrite <- (M coded Hne), <- Hpair. reflexivity.
  - intros -> Hne. unfold pw_apply. cbn [x_isnull]. do 2 f_equal. unfold cont_missing_info. fold missing. now apply M.
Qed.
Print Assumptions C58_cont_empirical_means.

Example C58_cont_hyps_met : cpw_transform IZR [5%Z] [[1]; [2; 3]] ex_sp [(XNum (-9), 4); (XNum (-9), 8); (XNaN, 5); (XNum 1, 2)]
    [XNum (-9); XNaN; XNum 7] Empirical Empirical None (Some 20) = [Fin ((4 + (8 + 0)) / 2); Fin ((5 + 0) / 1); Fin (Rmin (np_polyval [3; 2] 7) 20)].
Proof. reflexivity. Qed.

(** ** The divergences of the piecewise table are nonnegative. *)
Lemma rsum_map2_nonneg (f : R -> R -> R) a b : (forall x y, In x a -> In y b -> 0 <= f x y) -> 0 <= rsum (map2 f a b).
Proof.
  revert b; induction a as [|x a IH]; intros [|y b] H; cbn [map2 rsum]; try lra.
  apply Rplus_le_le_0_compat; [apply H; now left|]. apply IH. intros u v Hu Hv. apply H; now right.
Qed.
Theorem C45_divergences_nonnegative : forall f val p zs, In f [jeffrey1; js1; hellinger1; triangular1] ->
  (0 < zsum (p_nev p))%Z -> (0 < zsum (p_ev p))%Z ->
  0 <= pw_divergence f p (pw_metric_rates val p zs).
Proof.
  intros f val p zs Hf Hn He. apply IZR_lt in Hn, He.
  assert (D : forall x y, 0 < x -> 0 < y -> 0 <= f x y).
  { destruct Hf as [<-|[<-|[<-|[<-|[]]]]];
      [apply (d_nonneg _ jeffrey_div)|apply (d_nonneg _ js_div)|apply (d_nonneg _ hellinger_div)|apply (d_nonneg _ triangular_div)]. }
  unfold pw_divergence, fun_divergence. set (a := IZR (zsum (p_nev p))) in *. set (b := IZR (zsum (p_ev p))) in *.
  assert (Hpr : 0 < b / (a + b) < 1).
  { split; [apply Rdiv_lt_0_compat; lra|]. apply (Rmult_lt_reg_r (a + b)); [lra|]. unfold Rdiv. rewrite Rmult_assoc, Rinv_l by lra. lra. }
  assert (Hdiv : forall u v, 0 <= u -> 0 < v -> 0 <= u / v).
  { intros u v Hu Hv. unfold Rdiv. apply Rmult_le_pos; [exact Hu|]. left. now apply Rinv_0_lt_compat. }
  apply Rplus_le_le_0_compat; [apply Rplus_le_le_0_compat|].
  - apply Hdiv; [|lra]. apply rsum_map2_nonneg. intros x y Hx Hy.
    assert (Hr : forall er, In er (pw_metric_rates val p zs) -> 0 < er < 1).
    { intros er Her. unfold pw_metric_rates in Her. apply in_map_iff in Her as (z & <- & _). unfold clean_value.
      destruct (clip_nearest (Some (1 / 100000000)) (Some (1 - 1 / 100000000))
        (np_polyval (rev (nth (digitize (p_splits p) z) (p_c p) [])) (val z))) as [[H1 H2] _].
      - intros ? ? [= <-] [= <-]. lra.
      - specialize (H1 _ eq_refl). specialize (H2 _ eq_refl). lra. }
    apply in_map_iff in Hx as (e1 & <- & H1). apply in_map_iff in Hy as (e2 & <- & H2). apply Hr in H1, H2.
    apply D; apply Rdiv_lt_0_compat; lra.
  - destruct (map _ (filter _ _)) as [|s0 s] eqn:E; [lra|]. rewrite <- E.
    assert (Hlen : (0 < length (p_ev_special p))%nat).
    { destruct (p_ev_special p); [|cbn; lia]. destruct (p_nev_special p); discriminate E. }
    apply Hdiv; [|now apply lt_0_INR]. apply rsum_nonneg. intros r Hr. apply in_map_iff in Hr as (pq & <- & Hpq).
    apply in_map_iff in Hpq as (ne & <- & Hne). apply filter_In in Hne as [_ Hne]. apply andb_true_iff in Hne as [H1 H2].
    cbn [fst snd]. apply Z.ltb_lt in H1, H2. apply IZR_lt in H1, H2. apply D; apply Rdiv_lt_0_compat; assumption.
  - cbn [fst snd]. destruct ((0 <? p_ev_missing p)%Z && (0 <? p_nev_missing p)%Z) eqn:E; [|lra].
    apply andb_true_iff in E as [H1 H2]. apply Z.ltb_lt in H1, H2. apply IZR_lt in H1, H2. apply D; apply Rdiv_lt_0_compat; assumption.
Qed.
Print Assumptions C45_divergences_nonnegative.
