(** C30: automatic monotonic trend and trend classification. *)
From Coq Require Import List ZArith QArith Qabs Bool Lia Lqa.
From Verif Require Import Model.Arr Model.Core Model.CP Model.AutoMono Spec.CoreSpec Spec.CPSpec Spec.CPFitSpec Spec.AutoSpec
  Proofs.AutoP Proofs.AutoFinal Props.CPProps.
Import ListNotations.
Open Scope Q_scope.

(** The classifier always answers, whatever the rates, record counts and convex-hull ratio (nan included): one of ascending,
    descending, peak and valley; only the first two for auto_asc_desc. *)
Theorem C30_auto_total : forall mode recs rate hull, exists t, auto_monotonic mode recs rate hull = Some t /\
  (t = TAscending \/ t = TDescending \/ (mode <> AutoAscDesc /\ (t = TPeak \/ t = TValley))).
Proof.
  intros mode recs rate hull. unfold auto_monotonic. cbv zeta.
  set (d := auto_data_of recs rate hull).
  assert (H1 : exists t, decision d = Some t /\ (t = TAscending \/ t = TDescending \/ (t = TPeak \/ t = TValley))).
  { unfold decision. enough (H : (decision_code d < 4)%nat).
    { destruct (decision_code d) as [|[|[|[|k]]]]; [eauto 6..|lia]. }
    unfold decision_code. repeat match goal with |- context[if ?b then _ else _] => destruct b end; lia. }
  assert (H2 : exists t, asc_desc_decision d = Some t /\ (t = TAscending \/ t = TDescending)).
  { unfold asc_desc_decision. enough (H : (asc_desc_code d < 2)%nat).
    { destruct (asc_desc_code d) as [|[|k]]; [eauto 6..|lia]. }
    unfold asc_desc_code. repeat match goal with |- context[if ?b then _ else _] => destruct b end; lia. }
  destruct mode.
  - destruct H1 as (t & -> & [H|[H|H]]); exists t; split; auto. right; right. split; [discriminate|exact H].
  - destruct H1 as (t & -> & [H|[H|H]]); exists t; split; auto. right; right. split; [discriminate|exact H].
  - destruct H2 as (t & -> & [H|H]); exists t; split; auto.
Qed.
Print Assumptions C30_auto_total.

(** What the optimizer is given: with auto_heuristic peak and valley become the heuristic trends at a prebin with the largest
    (smallest) event rate. *)
Theorem C30_auto_heuristic : forall mode ne ev hull, length ne = length ev -> ne <> [] ->
  exists t, optimizer_trend mode ne ev hull = Some t /\
  match t with
  | TAscending | TDescending => True
  | TPeak | TValley => mode = Auto
  | TPeakHeuristic tc => mode = AutoHeuristic /\ exists m, nth_error (event_rates ne ev) tc = Some m /\
      forall r, In r (event_rates ne ev) -> r <= m
  | TValleyHeuristic tc => mode = AutoHeuristic /\ exists m, nth_error (event_rates ne ev) tc = Some m /\
      forall r, In r (event_rates ne ev) -> m <= r
  | _ => False
  end.
Proof.
  intros mode ne ev hull Hlen Hne. unfold optimizer_trend.
  assert (Hr : event_rates ne ev <> []).
  { destruct ne as [|a ne]; [congruence|]. destruct ev as [|b ev]; [discriminate|]. discriminate. }
  destruct (argmax_spec _ Hr) as (_ & bx & Hbx & Lx & _). destruct (argmin_spec _ Hr) as (_ & bn & Hbn & Ln & _).
  destruct (C30_auto_total mode (prebin_records ne ev) (event_rates ne ev) hull) as (t & -> & [->|[->|[Hm [->| ->]]]]);
    destruct mode; try congruence; eexists; (split; [reflexivity|]); cbn iota; try exact I; try reflexivity; (split; [reflexivity|]).
  - exists bx. split; [exact Hbx|]. intros r Hin. apply In_nth_error in Hin. destruct Hin as [i Hi]. eauto.
  - exists bn. split; [exact Hbn|]. intros r Hin. apply In_nth_error in Hin. destruct Hin as [i Hi]. eauto.
Qed.
Print Assumptions C30_auto_heuristic.

(** End to end: with any of the automatic modes the fitted table's event rates have one of the four shapes (up to the solver's
    resolution 1/M), and are monotone with auto_asc_desc. *)
Theorem C30_auto_fit : forall wu d solver sp fixed user splits0 xs ys sw f M g X mode hull,
  (0 < wu)%Z -> (forall w, In w sw -> (0 <= w)%Z) -> d = IV \/ d = JS -> (0 < M)%Z ->
  fit_numerical wu d solver sp fixed user splits0 xs ys sw = Some (Ok f) -> solved f solver M g X ->
  length (pb_nev (f_prebins f)) = length (pb_ev (f_prebins f)) ->
  Some (g_trend g) = optimizer_trend mode (pb_nev (f_prebins f)) (pb_ev (f_prebins f)) hull ->
  let rows := clean_rows f in
  all_pairs (rate_le_res M) rows \/ all_pairs (rate_ge_res M) rows \/
  (mode <> AutoAscDesc /\ (up_down (rate_le_res M) rows \/ up_down (rate_ge_res M) rows)).
Proof.
  intros * Hw Hsw Hd HM Hf Hsol Hlen Hg rows.
  destruct (C11_monotone_trend _ _ _ _ _ _ _ _ _ _ _ _ _ _ Hw Hsw Hd HM Hf Hsol) as [A D].
  destruct (C12_peak_valley _ _ _ _ _ _ _ _ _ _ _ _ _ _ Hw Hsw Hd HM Hf Hsol) as [P V].
  assert (Hne : pb_nev (f_prebins f) <> []).
  { destruct Hsol as [Hn _]. intros E. rewrite E in Hn. cbn in Hn. lia. }
  destruct (C30_auto_heuristic mode _ _ hull Hlen Hne) as (t & E & Ht). rewrite <- Hg in E. injection E as E.
  assert (Lr : length (event_rates (pb_nev (f_prebins f)) (pb_ev (f_prebins f))) = length (pb_nev (f_prebins f))).
  { unfold event_rates. apply Proofs.ArrP.length_map2. exact Hlen. }
  destruct t; try contradiction; auto.
  - right; right. split; [now rewrite Ht|]. left. apply P. now left.
  - right; right. split; [now rewrite Ht|]. right. apply V. now left.
  - destruct Ht as (Hm & m & Hm' & _). right; right. split; [now rewrite Hm|]. left. apply P. right. exists tc. split; [|exact E].
    assert (K : nth_error (event_rates (pb_nev (f_prebins f)) (pb_ev (f_prebins f))) tc <> None) by congruence.
    apply nth_error_Some in K. lia.
  - destruct Ht as (Hm & m & Hm' & _). right; right. split; [now rewrite Hm|]. right. apply V. right. exists tc. split; [|exact E].
    assert (K : nth_error (event_rates (pb_nev (f_prebins f)) (pb_ev (f_prebins f))) tc <> None) by congruence.
    apply nth_error_Some in K. lia.
Qed.
Print Assumptions C30_auto_fit.

(** Strictly increasing rates are classified as ascending by auto and auto_heuristic; strictly decreasing ones as descending
    unless the convex hull fills almost half of the rectangle and the first prebin has over a third of the records. *)
Theorem C30_auto_respects_monotone : forall mode recs rate hull,
  mode <> AutoAscDesc -> length recs = length rate -> (2 <= length rate)%nat ->
  (strictly_rising rate -> auto_monotonic mode recs rate hull = Some TAscending) /\
  (strictly_falling rate ->
     nan_le hull (48331470787525177 # 100000000000000000) = true \/ (2 # 3) < share (tl recs) (zsum recs) ->
     auto_monotonic mode recs rate hull = Some TDescending).
Proof.
  intros mode recs rate hull Hm Hlen Hn. split.
  - intros H. assert (E : decision (auto_data_of recs rate hull) = Some TAscending).
    { unfold decision, decision_code, auto_data_of. cbv zeta. cbn [p_area sense].
      rewrite area_rising by (auto; discriminate). rewrite sense_rising by assumption. reflexivity. }
    unfold auto_monotonic. destruct mode; congruence.
  - intros H Hh. assert (E : decision (auto_data_of recs rate hull) = Some TDescending).
    { unfold decision, decision_code, auto_data_of. cbv zeta. cbn [p_area sense p_hull p_min_right p_max_right].
      rewrite area_falling by (auto; discriminate). rewrite sense_falling by assumption. cbn [negb].
      destruct (falling_pos rate Hn H) as (-> & -> & _).
      destruct (nan_le hull _) eqn:Eh.
      - unfold q_le. rewrite (proj2 (Qle_bool_iff _ _)); [reflexivity|].
        rewrite skipn_all2 by lia. rewrite share_nil. discriminate.
      - destruct Hh as [Hh|Hh]; [discriminate|]. unfold q_le. destruct (Qle_bool _ _) eqn:Eq; [|reflexivity].
        apply Qle_bool_iff in Eq. destruct recs as [|r recs]; [cbn in Hlen; lia|]. cbn [skipn tl] in *. lra. }
    unfold auto_monotonic. destruct mode; congruence.
Qed.
Print Assumptions C30_auto_respects_monotone.
(** auto_asc_desc: strictly increasing (decreasing) rates are classified as ascending (descending) if the last (first) prebin has
    less than 96% (97%) of the records ... *)
Theorem C30_asc_desc_respects_monotone : forall recs rate hull,
  length recs = length rate -> (2 <= length rate)%nat ->
  (strictly_rising rate -> (1 # 25) <= share (removelast recs) (zsum recs) ->
     auto_monotonic AutoAscDesc recs rate hull = Some TAscending) /\
  (strictly_falling rate -> (3 # 100) <= share (tl recs) (zsum recs) ->
     auto_monotonic AutoAscDesc recs rate hull = Some TDescending).
Proof.
  intros recs rate hull Hlen Hn.
  assert (RL : removelast recs = firstn (length rate - 1) recs).
  { rewrite removelast_firstn_len. f_equal. lia. }
  unfold auto_monotonic, asc_desc_decision, asc_desc_code, auto_data_of. cbv zeta. cbn [p_area sense p_min_left p_max_left p_max_right]. split.
  - intros H Hs. rewrite sense_rising by assumption. cbn [negb]. destruct (rising_pos rate Hn H) as (-> & -> & _). unfold q_le.
    rewrite <- RL. destruct (Qle_bool (share (removelast recs) (zsum recs)) _) eqn:Eq.
    + apply Qle_bool_iff in Eq. lra.
    + cbn [firstn]. rewrite (proj2 (Qle_bool_iff (share [] (zsum recs)) _)).
      * rewrite area_rising by (auto; discriminate). reflexivity.
      * rewrite share_nil. discriminate.
  - intros H Hs. rewrite sense_falling by assumption. cbn [negb]. rewrite area_falling by (auto; discriminate).
    destruct (falling_pos rate Hn H) as (-> & _). unfold q_le. destruct (Qle_bool _ _) eqn:Eq; [|reflexivity].
    apply Qle_bool_iff in Eq. destruct recs as [|r recs]; [cbn in Hlen; lia|]. cbn [skipn tl] in *. lra.
Qed.
Print Assumptions C30_asc_desc_respects_monotone.
(** ... and otherwise the direction is reversed. *)
Theorem C30_asc_desc_reversed_refuted : exists ne ev,
  strictly_rising (event_rates ne ev) /\ (forall n, In n ne -> (0 < n)%Z) /\ (forall n, In n ev -> (0 < n)%Z) /\
  forall hull, optimizer_trend AutoAscDesc ne ev hull = Some TDescending.
Proof.
  exists [9; 500]%Z, [1; 500]%Z. split; [|split; [|split]].
  - intros [|[|k]] a b _ Hk Ha Hb; cbn in Ha, Hb; try discriminate.
    injection Ha as <-. injection Hb as <-. reflexivity.
  - intros n [<-|[<-|[]]]; lia.
  - intros n [<-|[<-|[]]]; lia.
  - intros hull. vm_compute. reflexivity.
Qed.
Print Assumptions C30_asc_desc_reversed_refuted.

(** The trend reported by the table's analysis. *)
Theorem C30_reported_trend : forall x, x <> [] ->
  match type_of_monotonic_trend x with
  | Undefined => length x = 1%nat
  | NAscending => strictly_rising x \/ constant x
  | NDescending => strictly_falling x
  | NPeakConcave => peaked x /\ concave x
  | NPeak => peaked x /\ ~ concave x
  | NValleyConvex => valleyed x /\ ~ peaked x /\ convex x
  | NValley => valleyed x /\ ~ peaked x /\ ~ convex x
  | NoMonotonic => ~ peaked x /\ ~ valleyed x /\ ~ rising x /\ ~ falling x
  end.
Proof.
  intros x Hx. unfold type_of_monotonic_trend. destruct (Nat.eqb_spec (length x) 1); [assumption|].
  assert (Hn : (2 <= length x)%nat) by (destruct x as [|? [|? ?]]; cbn in *; congruence || lia).
  assert (RP : rising x -> peaked x).
  { intros H. exists (length x - 1)%nat. split; [lia|]. split.
    - intros k a b ? ? ? ?. apply (H k); auto; lia.
    - intros k a b ? ? ? Hb. assert (K : nth_error x (S k) <> None) by congruence. apply nth_error_Some in K. lia. }
  assert (FP : falling x -> peaked x).
  { intros H. exists 0%nat. split; [lia|]. split; [intros k a b ? ?; lia|exact H]. }
  destruct (Nat.leb_spec 1 (n_peaks_valleys x)) as [Hc|Hc].
  - pose proof (is_peak_iff x Hx) as P. pose proof (is_valley_iff x Hx) as V.
    pose proof (is_concave_iff x) as C. pose proof (is_convex_iff x) as X.
    destruct (is_peak x).
    + assert (HP : peaked x) by now apply P. destruct (is_concave x).
      * split; [exact HP|now apply C].
      * split; [exact HP|]. intros K. apply C in K. discriminate.
    + assert (NP : ~ peaked x) by (intros K; apply P in K; discriminate). destruct (is_valley x).
      * assert (HV : valleyed x) by now apply V. destruct (is_convex x).
        -- split; [exact HV|]. split; [exact NP|now apply X].
        -- split; [exact HV|]. split; [exact NP|]. intros K. apply X in K. discriminate.
      * assert (NV : ~ valleyed x) by (intros K; apply V in K; discriminate). repeat split; auto.
  - assert (Hz : n_peaks_valleys x = 0%nat) by lia. apply npv_zero in Hz.
    destruct (all_nonneg (diffs x)) eqn:E.
    + destruct Hz as [H|[H|H]]; auto. exfalso. apply all_nonneg_iff in E.
      destruct (nth_error x 0) as [a|] eqn:Ea; [|apply nth_error_None in Ea; lia].
      destruct (nth_error x 1) as [b|] eqn:Eb; [|apply nth_error_None in Eb; lia].
      specialize (H 0%nat a b ltac:(lia) ltac:(lia) Ea Eb). specialize (E 0%nat a b ltac:(lia) ltac:(lia) Ea Eb). cbv beta in *. lra.
    + assert (NR : ~ rising x) by (intros K; apply all_nonneg_iff in K; congruence).
      destruct Hz as [H|[H|H]]; auto; exfalso; apply NR; intros k a b ? Hk Ha Hb; specialize (H k a b ltac:(lia) Hk Ha Hb); cbv beta in *; lra.
Qed.
Print Assumptions C30_reported_trend.
(** Conversely strictly monotone rates (at least two) are reported as such. *)
Theorem C30_reported_strict : forall x, (2 <= length x)%nat ->
  (strictly_rising x -> type_of_monotonic_trend x = NAscending) /\
  (strictly_falling x -> type_of_monotonic_trend x = NDescending).
Proof.
  intros x Hn. unfold type_of_monotonic_trend. destruct (Nat.eqb_spec (length x) 1); [lia|]. split; intros H.
  - assert (Z0 : n_peaks_valleys x = 0%nat) by (apply npv_zero; auto). rewrite Z0. cbn [Nat.leb].
    rewrite (proj2 (all_nonneg_iff x)); [reflexivity|]. intros k a b ? ? ? ?. apply Qlt_le_weak. apply (H k); auto.
  - assert (Z0 : n_peaks_valleys x = 0%nat) by (apply npv_zero; auto). rewrite Z0. cbn [Nat.leb].
    destruct (all_nonneg (diffs x)) eqn:E; [|reflexivity]. exfalso. apply all_nonneg_iff in E.
    destruct (nth_error x 0) as [a|] eqn:Ea; [|apply nth_error_None in Ea; lia].
    destruct (nth_error x 1) as [b|] eqn:Eb; [|apply nth_error_None in Eb; lia].
    specialize (H 0%nat a b ltac:(lia) ltac:(lia) Ea Eb). specialize (E 0%nat a b ltac:(lia) ltac:(lia) Ea Eb). cbv beta in *. lra.
Qed.
Print Assumptions C30_reported_strict.
(** A non-decreasing sequence with a tie is reported as a peak. *)
Theorem C30_ties_reported_as_peak_refuted : exists x, rising x /\ type_of_monotonic_trend x = NPeak.
Proof.
  exists [1; 1; 2]. split; [|reflexivity]. intros [|[|[|k]]] a b _ Hk Ha Hb; cbn in Ha, Hb; try discriminate;
    injection Ha as <-; injection Hb as <-; discriminate.
Qed.
Print Assumptions C30_ties_reported_as_peak_refuted.
(** The analysis classifies the clean bins when the table has one special row; with more special rows, the first of them are
    taken for bins. *)
Theorem C30_table_trend : forall (bins : list Q) special missing,
  table_trend (bins ++ [special; missing]) = type_of_monotonic_trend bins.
Proof.
  intros. unfold table_trend. rewrite app_length. cbn [length]. replace (length bins + 2 - 2)%nat with (length bins) by lia.
  rewrite firstn_app, Nat.sub_diag, firstn_all. cbn [firstn]. now rewrite app_nil_r.
Qed.
Print Assumptions C30_table_trend.
Theorem C30_table_trend_many_specials_refuted : exists bins specials missing,
  strictly_rising bins /\ type_of_monotonic_trend bins = NAscending /\ table_trend (bins ++ specials ++ [missing]) = NPeak.
Proof.
  exists [1 # 10; 2 # 10; 5 # 10], [1 # 10; 3 # 10], 0. split; [|split; reflexivity].
  intros [|[|[|k]]] a b _ Hk Ha Hb; cbn in Ha, Hb; try discriminate;
    injection Ha as <-; injection Hb as <-; reflexivity.
Qed.
Print Assumptions C30_table_trend_many_specials_refuted.

Example C30_hyps_met :
  strictly_rising (event_rates [80; 60; 40]%Z [20; 40; 60]%Z) /\
  optimizer_trend Auto [80; 60; 40]%Z [20; 40; 60]%Z (Some (1 # 10)) = Some TAscending /\
  optimizer_trend AutoHeuristic [80; 40; 90]%Z [20; 60; 10]%Z (Some (3 # 10)) = Some (TPeakHeuristic 1) /\
  optimizer_trend AutoAscDesc [40; 60; 80]%Z [60; 40; 20]%Z None = Some TDescending.
Proof.
  split; [|repeat split; vm_compute; reflexivity].
  intros [|[|[|k]]] a b _ Hk Ha Hb; cbn in Ha, Hb; try discriminate;
    injection Ha as <-; injection Hb as <-; reflexivity.
Qed.
