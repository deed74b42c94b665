From Coq Require Import List ZArith Bool Reals Lra Lia.
From Verif Require Import Model.Arr Model.Core Model.Cat Model.Metrics Model.Scorecard
  Spec.CoreSpec Spec.CatSpec Spec.ScoreSpec Proofs.ArrP Proofs.MetricsP Proofs.MetricsQ Proofs.ScoreP.
Import ListNotations.
Open Scope R_scope.

Definition mip_ok (mip : list (list R) -> option (list (list Z))) : Prop :=
  forall t p, mip t = Some p -> exists minb maxb, mip_feasible t p minb maxb.

Lemma finish_unrounded s rev ib mip i0 ic t : finish s rev ib false mip i0 ic t =
  if ib then intercept_based (scale s rev ic t) else (scale s rev ic t, i0).
Proof. unfold finish. destruct ib; [|reflexivity]. destruct (intercept_based _); reflexivity. Qed.

Lemma finish_score s rev ib mip ic t ks x : t <> [] -> Total t ks x ->
  Score_of (finish s rev ib false mip 0 ic t) ks (raw_total_line s rev ic t x).
Proof.
  intros Hn H. rewrite finish_unrounded. pose proof (scale_total s rev ic t ks x Hn H) as Hs. destruct ib.
  - exists (raw_total_line s rev ic t x - snd (intercept_based (scale s rev ic t))). split; [now apply ib_total|ring].
  - exists (raw_total_line s rev ic t x). split; [exact Hs|cbn [snd]; ring].
Qed.
Lemma Score_of_fun sc ks s s' : Score_of sc ks s -> Score_of sc ks s' -> s = s'.
Proof. intros (p & H & ->) (p' & H' & ->). f_equal. eapply Total_fun; eassumption. Qed.
Lemma choice_mapt f t ks : choice (mapt f t) ks <-> choice t ks.
Proof.
  split; revert ks; induction t as [|l t IH]; intros ks H; inversion H; subst; constructor;
    try (apply IH; assumption); cbn [map] in *; rewrite ?map_length in *; assumption.
Qed.
Lemma scale_choice s rev ic t ks : choice (scale s rev ic t) ks <-> choice t ks.
Proof. destruct s; cbn [scale]; [tauto|apply choice_mapt|apply choice_mapt]. Qed.
Lemma ib_choice' t ks : choice t ks <-> choice (fst (intercept_based t)) ks.
Proof.
  split; [|apply ib_choice]. intros H. destruct (Total_ex t ks H) as (s & Hs).
  apply ib_total in Hs. eapply Total_choice. exact Hs.
Qed.
Lemma choice_len t p ks : Forall2 (fun (l : list Z) (r : list R) => length l = length r) p t ->
  choice t ks -> choice (map (map IZR) p) ks.
Proof.
  intros H. revert ks. induction H; intros ks Hc; inversion Hc; subst; constructor; [rewrite map_length; lia|].
  now apply IHForall2.
Qed.
Lemma finish_choice s rev ib rounding mip i0 ic t ks : mip_ok mip -> choice t ks ->
  choice (fst (finish s rev ib rounding mip i0 ic t)) ks.
Proof.
  intros Hm H. apply (scale_choice s rev ic) in H. unfold finish. set (u := scale s rev ic t) in *.
  assert (Hu : choice (fst (if ib then intercept_based u else (u, i0))) ks).
  { destruct ib; [apply (proj1 (ib_choice' u ks)); exact H|exact H]. }
  destruct (if ib then intercept_based u else (u, i0)) as [w i]. cbn [fst] in Hu.
  destruct rounding; cbn [fst]; [|exact Hu]. destruct s; try (apply (proj2 (choice_mapt _ _ _)); exact Hu).
  destruct (mip w) as [p|] eqn:E; [|apply (proj2 (choice_mapt _ _ _)); exact Hu]. destruct (Hm _ _ E) as (mb & Mb & (_ & _ & _ & Hl & _)).
  eapply choice_len; eassumption.
Qed.
Lemma sample_choice ms mm vars xs ks : Forall svar_ok vars -> sample_rows vars xs ks ->
  choice (map (raw_points ms mm) vars) ks.
Proof. intros Hv H. destruct (raw_total ms mm vars xs ks Hv H) as (l & _ & Ht). eapply Total_choice; exact Ht. Qed.

Lemma fit_score s rev ib rounding mip i0 ms mm ic vars xs ks : mip_ok mip -> Forall svar_ok vars ->
  sample_rows vars xs ks ->
  exists x, Score_of (fit_scorecard s rev ib rounding mip i0 ms mm ic vars) ks x /\
    score (fit_scorecard s rev ib rounding mip i0 ms mm ic vars) vars xs = Ok x.
Proof.
  intros Hm Hv Hr. unfold fit_scorecard.
  pose proof (finish_choice s rev ib rounding mip i0 ic _ ks Hm (sample_choice ms mm vars xs ks Hv Hr)) as Hc.
  destruct (Total_ex _ _ Hc) as (p & Hp). exists (snd (finish s rev ib rounding mip i0 ic (map (raw_points ms mm) vars)) + p).
  split; [exists p; split; [exact Hp|reflexivity]|]. unfold score. rewrite (score_sum_total vars _ xs ks p Hv Hr Hp).
  cbn [rbind]. f_equal. ring.
Qed.

Lemma fit_line s rev ib mip ms mm ic vars xs ks : vars <> [] -> Forall svar_ok vars -> sample_rows vars xs ks ->
  exists l, linear_sum ms mm vars xs = Ok l /\
    score (fit_scorecard s rev ib false mip 0 ms mm ic vars) vars xs
    = Ok (raw_total_line s rev ic (map (raw_points ms mm) vars) l).
Proof.
  intros Hn Hv Hr. destruct (raw_total ms mm vars xs ks Hv Hr) as (l & El & Ht). exists l. split; [exact El|].
  unfold fit_scorecard.
  assert (Hs := finish_score s rev ib mip ic (map (raw_points ms mm) vars) ks l ltac:(destruct vars; [easy|discriminate]) Ht).
  destruct Hs as (p & Hp & E). unfold score. rewrite (score_sum_total vars _ xs ks p Hv Hr Hp). cbn [rbind].
  f_equal. rewrite E. ring.
Qed.

(** *** pdo_odds *)
Lemma ln2_pos : 0 < ln 2. Proof. rewrite <- ln_1. apply ln_increasing; lra. Qed.
Lemma logistic_odds l : (1 - logistic l) / logistic l = exp (- l).
Proof. unfold logistic. pose proof (exp_pos (- l)). field. lra. Qed.
Lemma logistic_odds' l : logistic l / (1 - logistic l) = exp l.
Proof.
  pose proof (exp_pos (- l)) as Hp. pose proof (logistic_odds l) as H.
  assert (Hl : logistic l <> 0). { unfold logistic. apply Rmult_integral_contrapositive_currified; [lra|]. apply Rinv_neq_0_compat. lra. }
  assert (H1 : 1 - logistic l <> 0).
  { unfold logistic. replace (1 - 1 / (1 + exp (- l))) with (exp (- l) / (1 + exp (- l))) by (field; lra).
    apply Rmult_integral_contrapositive_currified; [lra|]. apply Rinv_neq_0_compat. lra. }
  replace (logistic l / (1 - logistic l)) with (/ ((1 - logistic l) / logistic l)) by (field; split; assumption).
  rewrite H, exp_Ropp, Rinv_inv. reflexivity.
Qed.
Lemma pdo_line pdo odds pts ic t x : 0 < odds ->
  raw_total_line (PdoOdds pdo odds pts) false ic t x
  = pts + pdo * log2 ((1 - logistic (ic + x)) / logistic (ic + x) / odds).
Proof.
  intros Ho. cbn [raw_total_line]. rewrite logistic_odds. unfold log2, Rdiv.
  rewrite ln_mult by (try apply exp_pos; now apply Rinv_0_lt_compat). rewrite ln_exp, ln_Rinv by exact Ho. ring.
Qed.
Lemma pdo_line_rev pdo odds pts ic t x : 0 < odds ->
  raw_total_line (PdoOdds pdo odds pts) true ic t x
  = pts + pdo * log2 (logistic (ic + x) / (1 - logistic (ic + x)) / odds) - 2 * (pdo * ic / ln 2).
Proof.
  intros Ho. cbn [raw_total_line]. rewrite logistic_odds'. unfold log2, Rdiv.
  rewrite ln_mult by (try apply exp_pos; now apply Rinv_0_lt_compat). rewrite ln_exp, ln_Rinv by exact Ho. ring.
Qed.
Lemma log2_double x : 0 < x -> log2 (2 * x) = 1 + log2 x.
Proof. intros H. unfold log2. rewrite ln_mult by lra. pose proof ln2_pos. field. lra. Qed.

(** *** min_max *)
Lemma minmax_line rev a b ic t x : a <= b -> rsum (map lmin t) < rsum (map lmax t) ->
  rsum (map lmin t) <= x <= rsum (map lmax t) -> a <= raw_total_line (MinMax a b) rev ic t x <= b.
Proof.
  intros Hab Hm Hx. cbn [raw_total_line]. set (m := rsum (map lmin t)) in *. set (M := rsum (map lmax t)) in *.
  assert (Hq : 0 <= (x - m) / (M - m) <= 1).
  { split.
    - apply Rmult_le_pos; [lra|]. left. apply Rinv_0_lt_compat. lra.
    - apply Rmult_le_reg_r with (M - m); [lra|]. unfold Rdiv. rewrite Rmult_assoc, Rinv_l by lra. lra. }
  set (q := (x - m) / (M - m)) in *.
  destruct rev.
  - replace (a + -1 * (a - b) / (M - m) * (x - m)) with (a + (b - a) * q) by (unfold q; field; lra). nra.
  - replace (b + 1 * (a - b) / (M - m) * (x - m)) with (b - (b - a) * q) by (unfold q; field; lra). nra.
Qed.
Lemma minmax_ends rev a b ic t : rsum (map lmin t) < rsum (map lmax t) ->
  raw_total_line (MinMax a b) rev ic t (rsum (map lmin t)) = (if rev then a else b) /\
  raw_total_line (MinMax a b) rev ic t (rsum (map lmax t)) = (if rev then b else a).
Proof. intros H. cbn [raw_total_line]. destruct rev; split; field; lra. Qed.

Lemma two_totals_lt t k1 k2 x1 x2 : Total t k1 x1 -> Total t k2 x2 -> x1 <> x2 ->
  rsum (map lmin t) < rsum (map lmax t).
Proof.
  intros H1 H2 Hn. apply Total_bounds in H1. apply Total_bounds in H2.
  destruct (Rtotal_order x1 x2) as [|[|]]; lra.
Qed.
Lemma Total_nonempty_t t ks x y : Total t ks x -> x <> y -> Total t ks y -> False.
Proof. intros H Hn H'. apply Hn. eapply Total_fun; eassumption. Qed.

Theorem minmax_range rev ib mip a b ic t k1 k2 x1 x2 : a <= b -> Total t k1 x1 -> Total t k2 x2 -> x1 <> x2 ->
  let sc := finish (MinMax a b) rev ib false mip 0 ic t in
  (forall ks s, Score_of sc ks s -> a <= s <= b) /\
  (exists ks, Score_of sc ks a) /\ (exists ks, Score_of sc ks b).
Proof.
  intros Hab H1 H2 Hn sc. pose proof (two_totals_lt _ _ _ _ _ H1 H2 Hn) as Hlt.
  assert (Ht : t <> []). { intros ->. inversion H1; inversion H2; subst; easy. }
  assert (Hne := rows_nonempty _ _ _ H1).
  split; [|split].
  - intros ks s Hs. assert (Hc : choice t ks).
    { destruct Hs as (p & Hp & _). apply Total_choice in Hp. unfold sc in Hp. rewrite finish_unrounded in Hp.
      apply (scale_choice (MinMax a b) rev ic). destruct ib; [now apply ib_choice|exact Hp]. }
    destruct (Total_ex _ _ Hc) as (x & Hx). pose proof (finish_score (MinMax a b) rev ib mip ic t ks x Ht Hx) as Hf.
    rewrite (Score_of_fun _ _ _ _ Hs Hf). apply minmax_line; [exact Hab|exact Hlt|eapply Total_bounds; exact Hx].
  - destruct (minmax_ends rev a b ic t Hlt) as [Emin Emax]. destruct rev.
    + destruct (Total_min t Hne) as (ks & Hk). exists ks. rewrite <- Emin. now apply finish_score.
    + destruct (Total_max t Hne) as (ks & Hk). exists ks. rewrite <- Emax. now apply finish_score.
  - destruct (minmax_ends rev a b ic t Hlt) as [Emin Emax]. destruct rev.
    + destruct (Total_max t Hne) as (ks & Hk). exists ks. rewrite <- Emax. now apply finish_score.
    + destruct (Total_min t Hne) as (ks & Hk). exists ks. rewrite <- Emin. now apply finish_score.
Qed.

(** *** intercept_based *)
Lemma ib_min_zero t l : In l (fst (intercept_based t)) -> l <> [] -> In 0 l /\ forall x, In x l -> 0 <= x.
Proof.
  cbn [intercept_based fst]. intros H Hne. apply in_map_iff in H. destruct H as (r & <- & _).
  assert (Hr : r <> []). { intros ->. now apply Hne. }
  split.
  - apply in_map_iff. exists (lmin r). split; [ring|now apply lmin_in].
  - intros x Hx. apply in_map_iff in Hx. destruct Hx as (y & <- & Hy). pose proof (lmin_le _ _ Hy). lra.
Qed.

(** *** rounding *)
Lemma rint_total_diff s rev ib mip ic t ks x y : (match s with MinMax _ _ => forall w, mip w = None | _ => True end) ->
  Score_of (finish s rev ib false mip 0 ic t) ks x -> Score_of (finish s rev ib true mip 0 ic t) ks y ->
  Rabs (y - x) <= (INR (length t) + (if ib then 1 else 0)) / 2.
Proof.
  intros Hs (p & Hp & ->) (q & Hq & ->). rewrite finish_unrounded in *. unfold finish in *.
  set (u := scale s rev ic t) in *.
  assert (Hlen : length (fst (if ib then intercept_based u else (u, 0))) = length t).
  { destruct ib; cbn [intercept_based fst]; unfold u; rewrite ?map_length; destruct s; cbn [scale]; unfold mapt;
      rewrite ?map_length; reflexivity. }
  destruct (if ib then intercept_based u else (u, 0)) as [w i] eqn:Ew. cbn [fst snd] in *.
  assert (Hq' : Total (mapt rintR w) ks q). { destruct s; [exact Hq|exact Hq|]. now rewrite (Hs w) in Hq. }
  destruct (Total_rint w ks p Hp) as (q' & Hq'' & B). rewrite (Total_fun _ _ _ _ Hq' Hq''). rewrite Hlen in B.
  destruct ib.
  - pose proof (rint_half i). unfold rintR.
    replace (IZR (rint i) + q' - (i + p)) with ((IZR (rint i) - i) + (q' - p)) by ring.
    eapply Rle_trans; [apply Rabs_triang|]. lra.
  - replace (i + q' - (i + p)) with (q' - p) by ring. lra.
Qed.
Lemma mip_bounds t p minb maxb ks s : mip_feasible t p minb maxb -> Total (map (map IZR) p) ks s ->
  IZR (rint (rsum (map lmin t))) <= s <= IZR (rint (rsum (map lmax t))).
Proof.
  intros (Hlp & Hl1 & Hl2 & _ & _ & _ & _ & Hmin & Hmax & E1 & E2) H. rewrite <- E1, <- E2. clear E1 E2 Hlp Hl1 Hl2.
  revert minb maxb ks s Hmin Hmax H. induction p as [|l p IH]; intros minb maxb ks s Hmin Hmax H.
  - inversion Hmin; inversion Hmax; inversion H; subst. cbn. lra.
  - inversion Hmin as [|m ? mb ? Hm Hmb]; inversion Hmax as [|M ? Mb ? HM HMb]; subst.
    cbn [map] in H. inversion H as [|? ? k ks' v s' Hv Ht]; subst. cbn [zsum]. rewrite !plus_IZR.
    specialize (IH mb Mb ks' s' Hmb HMb Ht). rewrite nth_error_map in Hv.
    destruct (nth_error l k) as [z|] eqn:Ez; [|discriminate]. cbn in Hv. injection Hv as <-. apply nth_error_In in Ez.
    rewrite Forall_forall in Hm, HM. pose proof (IZR_le _ _ (Hm z Ez)). pose proof (IZR_le _ _ (HM z Ez)). lra.
Qed.
Lemma sum_lmin_scaled rev a b ic t : t <> [] -> (forall l, In l t -> l <> []) -> a <= b ->
  rsum (map lmin t) < rsum (map lmax t) ->
  rsum (map lmin (scale (MinMax a b) rev ic t)) = a /\ rsum (map lmax (scale (MinMax a b) rev ic t)) = b.
Proof.
  intros Ht Hne Hab Hlt. set (u := scale (MinMax a b) rev ic t).
  destruct (minmax_ends rev a b ic t Hlt) as [Emin Emax].
  destruct (Total_min t Hne) as (k1 & H1). destruct (Total_max t Hne) as (k2 & H2).
  apply (scale_total (MinMax a b) rev ic t _ _ Ht) in H1, H2. rewrite Emin in H1. rewrite Emax in H2.
  fold u in H1, H2. assert (Hneu := rows_nonempty _ _ _ H1).
  assert (Hin : forall ks y, Total u ks y -> a <= y <= b).
  { intros ks y Hy. destruct (scale_inv _ _ _ _ _ _ Hy) as (x & Hx). pose proof (scale_total (MinMax a b) rev ic t ks x Ht Hx) as Hy'.
    rewrite (Total_fun _ _ _ _ Hy Hy'). apply minmax_line; [exact Hab|exact Hlt|eapply Total_bounds; exact Hx]. }
  destruct (Total_min u Hneu) as (k3 & H3). destruct (Total_max u Hneu) as (k4 & H4).
  pose proof (Hin _ _ H3). pose proof (Hin _ _ H4). pose proof (Total_bounds _ _ _ H1). pose proof (Total_bounds _ _ _ H2).
  destruct rev; lra.
Qed.
Lemma lmax_shift l c : l <> [] -> lmax (map (fun p => p - c) l) = lmax l - c.
Proof.
  intros H. apply Rle_antisym.
  - assert (Hi : In (lmax (map (fun p => p - c) l)) (map (fun p => p - c) l)). { apply lmax_in. destruct l; [easy|discriminate]. }
    apply in_map_iff in Hi. destruct Hi as (y & E & Hy). pose proof (lmax_ge _ _ Hy). lra.
  - apply lmax_ge. apply in_map_iff. exists (lmax l). split; [reflexivity|now apply lmax_in].
Qed.
Lemma ib_sums t : (forall l, In l t -> l <> []) ->
  rsum (map lmin (fst (intercept_based t))) = 0 /\
  rsum (map lmax (fst (intercept_based t))) = rsum (map lmax t) - snd (intercept_based t).
Proof.
  cbn [intercept_based fst snd]. induction t as [|l t IH]; intros H; cbn [map rsum]; [split; lra|].
  destruct IH as [I1 I2]; [intros; apply H; now right|]. rewrite I1, I2. assert (Hl : l <> []) by (apply H; now left).
  rewrite lmax_shift by exact Hl. split; [|ring].
  assert (lmin (map (fun p => p - lmin l) l) = 0) as ->; [|ring].
  destruct (ib_min_zero [l] (map (fun p => p - lmin l) l)) as [Z0 Zp]; [now left|destruct l; [easy|discriminate]|].
  apply Rle_antisym; [now apply lmin_le|]. apply Zp. apply lmin_in. destruct l; [easy|discriminate].
Qed.
Theorem mip_rounded_range rev (ib : bool) mip (a b : Z) ic t p k1 k2 x1 x2 : mip_ok mip -> (a <= b)%Z ->
  Total t k1 x1 -> Total t k2 x2 -> x1 <> x2 ->
  let u := scale (MinMax (IZR a) (IZR b)) rev ic t in
  mip (if ib then fst (intercept_based u) else u) = Some p ->
  forall ks s, Score_of (finish (MinMax (IZR a) (IZR b)) rev ib true mip 0 ic t) ks s -> IZR a <= s <= IZR b.
Proof.
  intros Hm Hab H1 H2 Hn u Hp ks s (q & Hq & ->). pose proof (two_totals_lt _ _ _ _ _ H1 H2 Hn) as Hlt.
  assert (Ht : t <> []). { intros ->. inversion H1; inversion H2; subst; easy. }
  assert (Hne := rows_nonempty _ _ _ H1).
  destruct (sum_lmin_scaled rev (IZR a) (IZR b) ic t Ht Hne (IZR_le _ _ Hab) Hlt) as [S1 S2]. fold u in S1, S2.
  assert (Hneu : forall l, In l u -> l <> []).
  { apply (scale_total (MinMax (IZR a) (IZR b)) rev ic t _ _ Ht) in H1. apply (rows_nonempty _ _ _ H1). }
  unfold finish in *. fold u in Hq |- *. destruct ib.
  - destruct (ib_sums u Hneu) as [J1 J2]. assert (J3 : snd (intercept_based u) = IZR a) by exact S1.
    destruct (intercept_based u) as [w i] eqn:Ew. cbn [fst snd] in *. rewrite Hp in Hq. cbn [fst snd] in *.
    destruct (Hm _ _ Hp) as (mb & Mb & Hf). pose proof (mip_bounds _ _ _ _ _ _ Hf Hq) as Hb.
    rewrite J1, J2, S2, J3 in Hb. rewrite <- minus_IZR, rint_IZR in Hb. change 0 with (IZR 0) in Hb. rewrite rint_IZR in Hb.
    unfold rintR. rewrite J3, rint_IZR. rewrite minus_IZR in Hb. lra.
  - rewrite Hp in Hq. cbn [fst snd] in *. destruct (Hm _ _ Hp) as (mb & Mb & Hf).
    pose proof (mip_bounds _ _ _ _ _ _ Hf Hq) as Hb. rewrite S1, S2, !rint_IZR in Hb. lra.
Qed.
