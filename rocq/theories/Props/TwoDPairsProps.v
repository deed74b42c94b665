(** C75: analysis() of the 2D binning tables compares exactly the neighbouring bins. *)
From Coq Require Import List ZArith QArith Bool Arith Lia Sorting Relations Reals Lra.
From Verif Require Import Model.Arr Model.Core Model.Metrics Model.MultiTable Model.TwoD Model.TwoDCont Model.TwoDCart Model.TwoDPairs
  Spec.CoreSpec Spec.MetricsSpec Spec.MultiTableSpec Spec.TwoDSpec Spec.TwoDContSpec Spec.TwoDCartSpec Spec.TwoDPairsSpec
  Proofs.ArrP Proofs.CoreP Proofs.MetricsP Proofs.MultiTableP Proofs.MultiTableQ Proofs.MultiTableR
  Proofs.TwoDP Proofs.TwoDQ Proofs.TwoDR Proofs.TwoDS Proofs.TwoDT Proofs.TwoDU Proofs.TwoDV Proofs.TwoDG Proofs.TwoDC Proofs.TwoDCR Proofs.TwoDCartP Proofs.TwoDCartQ Proofs.TwoDCartR
  Proofs.TwoDPairsP Proofs.TwoDPairsQ Proofs.IndepP Props.TwoDProps Props.TwoDCartProps Props.MetricsProps.
Import ListNotations.
Open Scope nat_scope.

(** Binary target, strategy "grid": the pairs compared are the neighbouring bins of the displayed table. *)
Theorem C75_pairs : forall ax ay cx cy pre_x pre_y g c solver P0 data f,
  fit2 ax ay cx cy pre_x pre_y g solver P0 data = Ok f -> sound_solver2 c solver -> (forall k, length (P0 k) = k) ->
  (forall l, increasing (pre_x l)) -> (forall l, increasing (pre_y l)) ->
  let clean := filter (clean2 cx cy) data in
  tests_neighbours f (table_pairs (S (length (pre_y clean))) (S (length (pre_x clean))) f).
Proof.
  intros ax ay cx cy pre_x pre_y g c solver P0 data f Hfit Hs HP0 Hpx Hpy clean.
  destruct (fit2_unpack ax ay cx cy pre_x pre_y g c solver P0 data f Hfit Hs HP0) as (srs & HV & HF).
  assert (HP : t_P f = assign 0 (TwoD.t_rows f) (P0 (S (length (pre_y clean)) * S (length (pre_x clean))))).
  { unfold fit2 in Hfit. destruct (solver _ _ _ _ _) as [sol|]; [|discriminate]. exact (finish2_P _ _ _ _ _ _ _ _ _ _ _ Hfit). }
  exact (table_tests_neighbours _ _ _ _ srs _ _ f _ HF (proj1 HV) (HP0 _) HP (Hpx _) (Hpy _)).
Qed.
Print Assumptions C75_pairs.

(** ... strategy "cart" ... *)
Theorem C75_pairs_cart : forall ax ay cx cy pre_x pre_y grow g c solver P0 data f,
  fit2_cart ax ay cx cy pre_x pre_y grow g solver P0 data = Ok f -> sound_solver2 c solver -> (forall k, length (P0 k) = k) ->
  (forall l, increasing (pre_x l)) -> (forall l, increasing (pre_y l)) ->
  let clean := filter (clean2 cx cy) data in
  tests_neighbours f (table_pairs (S (length (pre_y clean))) (S (length (pre_x clean))) f).
Proof.
  intros ax ay cx cy pre_x pre_y grow g c solver P0 data f Hfit Hs HP0 Hpx Hpy clean.
  destruct (fit2_cart_unpack ax ay cx cy pre_x pre_y grow g c solver P0 data f Hfit Hs HP0) as (srs & (HT & _) & _ & HF & _).
  assert (HP : t_P f = assign 0 (TwoD.t_rows f) (P0 (S (length (pre_y clean)) * S (length (pre_x clean))))).
  { unfold fit2_cart in Hfit. destruct (grow _) as [|]; [discriminate|]. destruct (solver _ _ _ _ _) as [sol|]; [|discriminate]. exact (finish2_P _ _ _ _ _ _ _ _ _ _ _ Hfit). }
  exact (table_tests_neighbours _ _ _ _ srs _ _ f _ HF HT (HP0 _) HP (Hpx _) (Hpy _)).
Qed.
Print Assumptions C75_pairs_cart.

(** ... and the same for a continuous target. *)
Theorem C75_pairs_continuous : forall ax ay cx cy pre_x pre_y g c solver P0 data f,
  fit3 ax ay cx cy pre_x pre_y g solver P0 data = Ok f -> sound_solver2 c solver -> (forall k, length (P0 k) = k) ->
  (forall l, increasing (pre_x l)) -> (forall l, increasing (pre_y l)) ->
  let clean := filter (clean3 cx cy) data in
  tests_neighbours (k_fit f) (table_pairs (S (length (pre_y clean))) (S (length (pre_x clean))) (k_fit f)).
Proof.
  intros ax ay cx cy pre_x pre_y g c solver P0 data f Hfit Hs HP0 Hpx Hpy clean.
  destruct (fit3_unpack ax ay cx cy pre_x pre_y g c solver P0 data f Hfit Hs HP0) as (srs & HV & HF & _).
  assert (HP : t_P (k_fit f) = assign 0 (TwoD.t_rows (k_fit f)) (P0 (S (length (pre_y clean)) * S (length (pre_x clean))))).
  { unfold fit3 in Hfit. destruct (solver _ _ _ _ _) as [sol|]; [|discriminate]. unfold rbind in Hfit. destruct (finish2 _ _ _ _ _ _ _ _ _ _) as [f2|] eqn:E; [|discriminate].
    injection Hfit as <-. cbn [k_fit]. exact (finish2_P _ _ _ _ _ _ _ _ _ _ _ E). }
  exact (table_tests_neighbours _ _ _ _ srs _ _ _ _ HF (proj1 HV) (HP0 _) HP (Hpx _) (Hpy _)).
Qed.
Print Assumptions C75_pairs_continuous.
Theorem C75_pairs_continuous_cart : forall ax ay cx cy pre_x pre_y grow g c solver P0 data f,
  fit3_cart ax ay cx cy pre_x pre_y grow g solver P0 data = Ok f -> sound_solver2 c solver -> (forall k, length (P0 k) = k) ->
  (forall l, increasing (pre_x l)) -> (forall l, increasing (pre_y l)) ->
  let clean := filter (clean3 cx cy) data in
  tests_neighbours (k_fit f) (table_pairs (S (length (pre_y clean))) (S (length (pre_x clean))) (k_fit f)).
Proof.
  intros ax ay cx cy pre_x pre_y grow g c solver P0 data f Hfit Hs HP0 Hpx Hpy clean.
  destruct (fit3_cart_unpack ax ay cx cy pre_x pre_y grow g c solver P0 data f Hfit Hs HP0) as (srs & (HT & _) & _ & HF & _).
  assert (HP : t_P (k_fit f) = assign 0 (TwoD.t_rows (k_fit f)) (P0 (S (length (pre_y clean)) * S (length (pre_x clean))))).
  { unfold fit3_cart in Hfit. destruct (grow _) as [|]; [discriminate|]. destruct (solver _ _ _ _ _) as [sol|]; [|discriminate]. unfold rbind in Hfit. destruct (finish2 _ _ _ _ _ _ _ _ _ _) as [f2|] eqn:E; [|discriminate].
    injection Hfit as <-. cbn [k_fit]. exact (finish2_P _ _ _ _ _ _ _ _ _ _ _ E). }
  exact (table_tests_neighbours _ _ _ _ srs _ _ _ _ HF HT (HP0 _) HP (Hpx _) (Hpy _)).
Qed.
Print Assumptions C75_pairs_continuous_cart.

(** Every test of the binary table is defined: its two-by-two table has the counts of the two bins, without an empty row or
    column; Cramer's V is defined and between 0 and 1; the quality score is between 0 and 1. *)
Theorem C75_tests_defined : forall ax ay cx cy pre_x pre_y g c solver P0 data f test iv hn,
  fit2 ax ay cx cy pre_x pre_y g solver P0 data = Ok f -> sound_solver2 c solver -> (forall k, length (P0 k) = k) ->
  (forall l, increasing (pre_x l)) -> (forall l, increasing (pre_y l)) ->
  (forall obs, (0 <= test obs <= 1)%R) -> (0 <= iv)%R -> (0 <= hn <= 1)%R ->
  let m := S (length (pre_y (filter (clean2 cx cy) data))) in let n := S (length (pre_x (filter (clean2 cx cy) data))) in
  let nb := length (t_bx f) in
  (forall a b, In (a, b) (table_pairs m n f) ->
     an_obs f (a, b) = [[nth a (t_nev f) 0; nth b (t_nev f) 0]; [nth a (t_ev f) 0; nth b (t_ev f) 0]]%Z /\
     (0 < nth a (t_nev f) 0 /\ 0 < nth b (t_nev f) 0 /\ 0 < nth a (t_ev f) 0 /\ 0 < nth b (t_ev f) 0)%Z /\
     exists t, chi2_contingency (an_obs f (a, b)) = Ok t /\ (0 <= t)%R /\
       (t = 0%R <-> (nth a (t_ev f) 0 * nth b (t_nev f) 0 = nth b (t_ev f) 0 * nth a (t_nev f) 0)%Z)) /\
  (exists v, an_cramer f = Ok v /\ (0 <= v <= 1)%R /\
     (v = 0%R <-> forall a b, a < nb -> b < nb -> (nth a (t_ev f) 0 * nth b (t_nev f) 0 = nth b (t_ev f) 0 * nth a (t_nev f) 0)%Z)) /\
  (0 <= an_quality test m n f iv hn <= 1)%R.
Proof.
  intros ax ay cx cy pre_x pre_y g c solver P0 data f test iv hn Hfit Hs HP0 Hpx Hpy Ht Hiv Hhn m n nb.
  pose proof (C75_pairs ax ay cx cy pre_x pre_y g c solver P0 data f Hfit Hs HP0 Hpx Hpy) as (_ & _ & HL & _). fold m n in HL.
  destruct (C46_limits ax ay cx cy pre_x pre_y g c solver P0 data f Hfit Hs HP0) as (_ & _ & Hpos).
  destruct (fit2_unpack ax ay cx cy pre_x pre_y g c solver P0 data f Hfit Hs HP0) as (srs & HV & HF).
  assert (Lx : nb = length srs) by (unfold nb; rewrite (fo_x _ _ _ _ _ _ _ _ HF); apply map_length).
  assert (Ln : length (t_nev f) = nb + 2) by (rewrite (fo_ne _ _ _ _ _ _ _ _ HF), app_length, map_length, Lx; reflexivity).
  assert (Le : length (t_ev f) = nb + 2) by (rewrite (fo_e _ _ _ _ _ _ _ _ HF), app_length, map_length, Lx; reflexivity).
  assert (Hm : an_metric f = nb) by (unfold an_metric; lia).
  assert (Hnth : forall l k, k < nb -> nth k (firstn nb l) 0%Z = nth k l 0%Z).
  { intros l k Hk. rewrite <- (firstn_skipn nb l) at 2. destruct (Nat.lt_ge_cases k (length (firstn nb l))) as [H|H]; [now rewrite app_nth1|]. rewrite nth_overflow by exact H.
    rewrite firstn_length in H. symmetry. rewrite firstn_skipn. apply nth_overflow. lia. }
  split; [|split].
  - intros a b Hab. destruct (HL a b Hab) as (Ha & Hb & _). fold nb in Ha, Hb. destruct (Hpos a Ha) as (A1 & A2 & _). destruct (Hpos b Hb) as (B1 & B2 & _).
    assert (Eo : an_obs f (a, b) = [[nth a (t_nev f) 0; nth b (t_nev f) 0]; [nth a (t_ev f) 0; nth b (t_ev f) 0]]%Z) by (unfold an_obs; rewrite Hm; cbn [fst snd]; rewrite !Hnth by assumption; reflexivity).
    split; [exact Eo|]. split; [tauto|]. rewrite Eo. clear Eo.
    set (na := nth a (t_nev f) 0%Z) in *. set (nb' := nth b (t_nev f) 0%Z) in *. set (ea := nth a (t_ev f) 0%Z) in *. set (eb := nth b (t_ev f) 0%Z) in *.
    assert (Hok : table_ok 2 [[na; nb']; [ea; eb]]).
    { split; [discriminate|]. intros col [<-|[<-|[]]]; (split; [reflexivity|]; split; [intros v [<-|[<-|[]]]; lia|cbn [zsum]; lia]). }
    assert (Hr : forall k, k < 2 -> (0 < row_sum [[na; nb']; [ea; eb]] k)%R).
    { intros [|[|k]] Hk; [| |lia]; unfold row_sum, at_row; cbn [map nth zsum]; apply (IZR_lt 0); lia. }
    exists (pearson 2 [[na; nb']; [ea; eb]]). split; [apply (chi2_value 2); [exact Hok|exact Hr|lia]|].
    destruct (pearson_facts 2 _ Hok Hr ltac:(lia)) as (F1 & F2 & _). split; [exact F1|]. rewrite F2, (independent_cross 2 _ _ Hok). split.
    + intros X. exact (X 0 1 ltac:(lia) ltac:(lia)).
    + intros X [|[|k]] [|[|j]] Hk Hj; cbn [nth]; try lia.
  - unfold an_cramer. rewrite Hm. destruct (Nat.leb_spec 2 nb) as [H2|H2].
    + assert (L1 : length (firstn nb (t_nev f)) = nb) by (rewrite firstn_length; lia). assert (L2 : length (firstn nb (t_ev f)) = nb) by (rewrite firstn_length; lia).
      assert (P1 : forall v, In v (firstn nb (t_nev f)) -> (0 < v)%Z).
      { intros v Hv. apply (In_nth _ _ 0%Z) in Hv as (k & Hk & <-). rewrite L1 in Hk. rewrite Hnth by exact Hk. apply (Hpos k Hk). }
      assert (P2 : forall v, In v (firstn nb (t_ev f)) -> (0 < v)%Z).
      { intros v Hv. apply (In_nth _ _ 0%Z) in Hv as (k & Hk & <-). rewrite L2 in Hk. rewrite Hnth by exact Hk. apply (Hpos k Hk). }
      assert (Hsum : forall l, l <> [] -> (forall v, In v l -> (0 < v)%Z) -> (0 < zsum l)%Z).
      { induction l as [|v l IH]; [congruence|]. intros _ Hp. cbn [zsum]. pose proof (Hp v (or_introl eq_refl)). destruct l as [|w l]; [cbn; lia|].
        specialize (IH ltac:(discriminate) (fun u Hu => Hp u (or_intror Hu))). lia. }
      assert (Hok : table_ok nb [firstn nb (t_nev f); firstn nb (t_ev f)]).
      { split; [discriminate|]. intros col [<-|[<-|[]]].
        - split; [exact L1|]. split; [intros v Hv; apply P1 in Hv; lia|]. apply Hsum; [intros E; rewrite E in L1; cbn in L1; lia|exact P1].
        - split; [exact L2|]. split; [intros v Hv; apply P2 in Hv; lia|]. apply Hsum; [intros E; rewrite E in L2; cbn in L2; lia|exact P2]. }
      assert (Hr : forall k, k < nb -> (0 < row_sum [firstn nb (t_nev f); firstn nb (t_ev f)] k)%R).
      { intros k Hk. unfold row_sum, at_row. cbn [map zsum]. apply (IZR_lt 0). pose proof (P1 _ (nth_In _ 0%Z (eq_ind_r (fun q => k < q) Hk L1))). pose proof (P2 _ (nth_In _ 0%Z (eq_ind_r (fun q => k < q) Hk L2))). lia. }
      destruct (cramer_binary nb _ _ Hok Hr ltac:(lia)) as (v & -> & V1 & V2 & _). exists v. split; [reflexivity|]. split; [exact V1|].
      rewrite V2, (independent_cross nb _ _ Hok). split; intros X a b Ha Hb; specialize (X a b Ha Hb); rewrite !Hnth in * by assumption; exact X.
    + exists 0%R. split; [reflexivity|]. split; [lra|]. split; [|reflexivity]. intros _ a b Ha Hb. assert (a = b) by lia. subst b. ring.
  - unfold an_quality. apply (C22_quality_score_range iv _ hn Hiv); [|exact Hhn]. intros p Hp. apply in_map_iff in Hp as (q & <- & _). apply Ht.
Qed.
Print Assumptions C75_tests_defined.

(** A non-trivial case: the 2 x 2 table of C46. *)
Example C75_hyps_met : exists f, ex_fit = Ok f /\ sound_solver2 ex_cfg (brute ex_cfg) /\ (forall k, length (repeat 7 k) = k) /\
  (forall l, increasing (ex_pre l)) /\
  table_pairs 2 2 f = [(0, 1); (0, 2); (1, 3); (2, 3)] /\ an_obs f (1, 3) = [[1; 1]; [2; 3]]%Z /\ neighbours f 1 3 /\ ~ neighbours f 0 3.
Proof.
  eexists. split; [vm_compute; reflexivity|]. split; [apply brute_sound|]. split; [intros k; apply repeat_length|]. split; [intros l; repeat constructor|].
  split; [vm_compute; reflexivity|]. split; [vm_compute; reflexivity|]. split.
  - right. exists None, 3%Z, None. split; [vm_compute; reflexivity|]. split; [vm_compute; reflexivity|]. exists 3%Z. vm_compute. split; split; (exact I || discriminate).
  - intros [(lo & s & hi & E1 & E2 & v & V1 & V2)|(lo & s & hi & E1 & E2 & v & V1 & V2)]; unfold in_interval in V1, V2; cbn [t_bx t_by nth_error] in V1, V2; unfold in_bin in V1, V2; lia.
Qed.
