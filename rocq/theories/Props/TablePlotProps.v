(** C89: the figures of the one-dimensional binning tables. *)
From Coq Require Import List ZArith QArith Bool Arith Lia String Reals Lra.
From Verif Require Import Model.Arr Model.Core Model.Cont Model.Metrics Model.ContTable Model.Multi Model.MultiT Model.MultiTable Model.Label Model.Lifecycle Model.ContLife Model.MultiLife
  Model.TablePlot Spec.CoreSpec Spec.ContSpec Spec.ContTableSpec Spec.LifecycleSpec Spec.ContLifeSpec Spec.MultiLifeSpec Spec.ScenLifeSpec Spec.TablePlotSpec
  Proofs.ArrP Proofs.CoreP Proofs.CoreFinal Proofs.FitP Proofs.PrebinP Proofs.TwoDTableS Proofs.LabelP Proofs.LifeP Proofs.LifeQ Proofs.LifeR Proofs.ContTableQ Proofs.ContLifeP Proofs.ContLifeQ Proofs.MetricsP Proofs.MetricsQ Proofs.ScenLifeS Proofs.MultiLifeP
  Proofs.TablePlotP Proofs.TablePlotQ Proofs.ContP Props.ContTableProps Props.ContLifeProps Props.LabelProps Props.LifecycleProps Props.MultiLifeProps.
Import ListNotations.
Open Scope list_scope.
Open Scope nat_scope.

(** the tick labels, position by position *)
Lemma tick_labels_iff t nb a text : well_formed t nb ->
  tick_labels t nb a text = (if pa_labels a then Some (map (label_of t text) (shown t nb a)) else None) <->
  (pa_labels a = false \/ pa_special a = true \/ pt_specials t = 1).
Proof.
  intros (Hnb & _). unfold tick_labels. destruct (pa_labels a); [|split; auto]. rewrite shown_eq. unfold rows_shown, rows_of.
  set (k := pt_specials t). set (g := label_of t text). destruct (pa_special a).
  - split; [auto|intros _]. f_equal. destruct (pa_missing a).
    + rewrite app_assoc, <- seq_app. rewrite (seq_app (nb + k) 1 0). reflexivity.
    + rewrite app_nil_r, <- seq_app. rewrite map_length, seq_length, (seq_app (nb + k) 1 0), map_app.
      replace (nb + k + 1 - 1) with (nb + k) by lia. rewrite firstn_app, map_length, seq_length, Nat.sub_diag, firstn_O, app_nil_r.
      apply firstn_all2. rewrite map_length, seq_length. lia.
  - assert (L : List.length (firstn (nb + k - 1) (map g (seq 0 (nb + k + 1))) ++ [g (nb + k)]) = nb + k).
    { rewrite app_length, firstn_length, map_length, seq_length. cbn [List.length]. lia. }
    split.
    + intros E. right. right. injection E as E. apply (f_equal (@List.length string)) in E. rewrite map_length in E.
      destruct (pa_missing a); cbn [app] in E.
      * rewrite L, app_length, seq_length in E. cbn [List.length] in E. lia.
      * rewrite firstn_length, L, app_nil_r, seq_length in E. lia.
    + intros [E|[E|E]]; [discriminate|discriminate|]. f_equal.
      assert (F : firstn (nb + k - 1) (map g (seq 0 (nb + k + 1))) = map g (seq 0 nb)).
      { replace (nb + k + 1) with (nb + 2) by lia. replace (nb + k - 1) with nb by lia. rewrite seq_app, map_app, firstn_app, map_length, seq_length, Nat.sub_diag, firstn_O, app_nil_r.
        apply firstn_all2. rewrite map_length, seq_length. lia. }
      destruct (pa_missing a).
      * rewrite F. cbn [app]. rewrite map_app. reflexivity.
      * rewrite L, F. rewrite firstn_app, map_length, seq_length. replace (nb + k - 1 - nb) with 0 by lia. rewrite firstn_O, !app_nil_r.
        apply firstn_all2. rewrite map_length, seq_length. lia.
Qed.

Lemma str_in (s : string) : forall l, (existsb (String.eqb s) l = true <-> In s l).
Proof. intros l. rewrite existsb_exists. split; [intros (x & Hx & E); apply String.eqb_eq in E; now subst|intros H; exists s; split; [exact H|apply String.eqb_refl]]. Qed.
Lemma metric_known_iff k s : metric_known k s = true <-> match k with KBinary => In s ["woe"; "event_rate"; "iv"]%string | KContinuous => In s ["mean"; "woe"; "iv"]%string | KMulticlass => True end.
Proof.
  destruct k; [| |split; auto]; rewrite <- str_in; cbn [metric_known existsb]; rewrite !orb_true_iff; intuition discriminate.
Qed.
Lemma style_known_iff s : style_known s = true <-> In s ["bin"; "actual"]%string.
Proof. rewrite <- str_in. unfold style_known. cbn [existsb]. rewrite !orb_true_iff. intuition discriminate. Qed.

(** what a call answers once build() has been called *)
Lemma plot1_cases t nb text a : well_formed t nb -> List.length text = rows_of t nb ->
  (actual_request t a -> nb = S (List.length (pt_splits t))) ->
  match plot1 t (Some text) a with
  | Ok (FBin f) => accepted t a /\ ~ actual_request t a /\ plot_bins t text a = Ok f
  | Ok (FActual f) => accepted t a /\ actual_request t a /\ exists lo hi, pt_range t = Some (lo, hi) /\ plot_actual t a lo hi = Ok f
  | Err e => ~ accepted t a /\ (e = TypeError \/ e = ValueError)
  end.
Proof.
  intros HW HT HN. unfold plot1.
  assert (ACT : actual_request t a <-> pt_kind t <> KMulticlass /\ actual a = true) by (unfold actual_request, actual; now rewrite String.eqb_eq).
  assert (CK : match check_plot t a with
               | Some e => ~ accepted t a /\ (e = TypeError \/ e = ValueError)
               | None => pa_save_ok a = true -> accepted t a
               end).
  { unfold accepted. unfold actual_request.
    unfold check_plot, check_actual, guard1. destruct (pt_kind t) eqn:K;
      repeat match goal with |- context [if ?c then _ else _] => destruct c eqn:?Hc end;
      repeat match goal with H : negb _ = true |- _ => apply negb_true_iff in H | H : negb _ = false |- _ => apply negb_false_iff in H
             | H : guard1 _ _ _ = _ |- _ => unfold guard1 in H end;
      try (split; [|auto]; intros (A1 & A2 & A3 & A4 & A5 & A6 & A7); try congruence).
    all: try (match goal with H : metric_known ?k ?m = false |- _ => rewrite (proj2 (metric_known_iff k m) A5) in H; discriminate end).
    all: try (specialize (A6 ltac:(discriminate)); apply style_known_iff in A6; congruence).
    all: try (match goal with H : pa_labels _ && actual _ = true |- _ => apply andb_true_iff in H as [?Hl ?Ha]; destruct (A7 ltac:(split; [discriminate|apply String.eqb_eq; assumption])) as (B1 & B2 & B3); congruence end).
    all: try (destruct (A7 ltac:(split; [discriminate|apply String.eqb_eq; assumption])) as (B1 & B2 & B3); first [congruence|destruct (pt_range t); [discriminate|congruence]]).
    all: intros Hs; do 4 (split; [assumption|]).
    5: { split; [exact I|]. split; [intros G; exfalso; now apply G|]. intros [G _]. exfalso. now apply G. }
    all: match goal with H : metric_known _ _ = true |- _ => split; [exact (proj1 (metric_known_iff _ _) H)|] end.
    all: match goal with H : style_known _ = true |- _ => split; [intros _; exact (proj1 (style_known_iff _) H)|] end.
    all: intros [_ G2]; apply String.eqb_eq in G2; lazymatch type of G2 with String.eqb (pa_style ?q) _ = true => change (actual q = true) in G2 end.
    2: congruence.
    3: congruence.
    all: match goal with H : _ && true = false |- _ => rewrite andb_true_r in H end.
    all: split; [assumption|]; split; [first [assumption|reflexivity]|].
    all: intros E; match goal with H : match pt_range _ with _ => _ end = _ |- _ => rewrite E in H; discriminate end.
  }
  destruct (check_plot t a) as [e|] eqn:EC; [exact CK|].
  assert (NS : pa_save_ok a = false -> ~ accepted t a) by (intros E (_ & _ & _ & E' & _); congruence).
  assert (BIN : ~ actual_request t a -> match rbind (rbind (plot_bins t text a) (fun f => Ok (FBin f))) (fun f => if pa_save_ok a then Ok f else Err TypeError) with
     | Ok (FBin f) => accepted t a /\ ~ actual_request t a /\ plot_bins t text a = Ok f
     | Ok (FActual f) => accepted t a /\ actual_request t a /\ exists lo hi, pt_range t = Some (lo, hi) /\ plot_actual t a lo hi = Ok f
     | Err e => ~ accepted t a /\ (e = TypeError \/ e = ValueError) end).
  { intros NA. rewrite (plot_bins_eq t nb a text HW HT). cbn [rbind]. destruct (pa_save_ok a); [|auto]. split; [auto|]. split; [exact NA|reflexivity]. }
  destruct (actual a) eqn:EA.
  - destruct (pt_kind t) eqn:K; [| |apply BIN; rewrite ACT; intros [G _]; congruence].
    + assert (AR : actual_request t a) by (apply ACT; split; [discriminate|reflexivity]).
      destruct (pt_range t) as [[lo hi]|] eqn:ER.
      * destruct (plot_actual_ok t nb a HW (HN AR) lo hi) as (f & Ef & _). rewrite Ef. cbn [rbind]. destruct (pa_save_ok a); [|auto]. split; [auto|]. split; [exact AR|]. exists lo, hi. auto.
      * cbn [rbind]. split; [|auto]. intros (_ & _ & _ & _ & _ & _ & A7). destruct (A7 AR) as (_ & _ & B). congruence.
    + assert (AR : actual_request t a) by (apply ACT; split; [discriminate|reflexivity]).
      destruct (pt_range t) as [[lo hi]|] eqn:ER.
      * destruct (plot_actual_ok t nb a HW (HN AR) lo hi) as (f & Ef & _). rewrite Ef. cbn [rbind]. destruct (pa_save_ok a); [|auto]. split; [auto|]. split; [exact AR|]. exists lo, hi. auto.
      * cbn [rbind]. split; [|auto]. intros (_ & _ & _ & _ & _ & _ & A7). destruct (A7 AR) as (_ & _ & B). congruence.
  - destruct (pt_kind t); apply BIN; rewrite ACT; intros [_ G]; congruence.
Qed.

(** plot() draws exactly the requests that are documented, after build(); otherwise it raises TypeError or ValueError. *)
Theorem C89_accepted_iff : forall t nb text a, well_formed t nb -> List.length text = rows_of t nb ->
  (actual_request t a -> nb = S (List.length (pt_splits t))) ->
  plot1 t None a = Err NotFitted /\
  ((exists f, plot1 t (Some text) a = Ok f) <-> accepted t a) /\
  (~ accepted t a -> plot1 t (Some text) a = Err TypeError \/ plot1 t (Some text) a = Err ValueError).
Proof.
  intros t nb text a HW HT HN. split; [reflexivity|]. pose proof (plot1_cases t nb text a HW HT HN) as C. destruct (plot1 t (Some text) a) as [[f|f]|e].
  - destruct C as (C & _). split; [split; [auto|eauto]|tauto].
  - destruct C as (C & _). split; [split; [auto|eauto]|tauto].
  - destruct C as (C & D). split; [split; [intros (f & E); discriminate|tauto]|]. intros _. destruct D as [->| ->]; auto.
Qed.
Print Assumptions C89_accepted_iff.

(** style="bin" (and the multiclass table): the bars show the requested rows with their counts, in order, whatever is hidden; the line
    joins the bins; hatching, fading and legend are right. *)
Theorem C89_bars : forall t nb text a, well_formed t nb -> List.length text = rows_of t nb -> accepted t a -> ~ actual_request t a ->
  exists f, plot1 t (Some text) a = Ok (FBin f) /\ bars_show t nb a f /\ styles_show t nb a f.
Proof.
  intros t nb text a HW HT HA HN. pose proof (plot1_cases t nb text a HW HT ltac:(tauto)) as C.
  destruct (plot1 t (Some text) a) as [[f|f]|e]; [|tauto|tauto]. exists f. split; [reflexivity|]. destruct C as (_ & _ & C).
  rewrite (plot_bins_eq t nb a text HW HT) in C. injection C as <-. destruct HW as (Hnb & _). split; [reflexivity|].
  unfold styles_show. cbn [bf_lines bf_special bf_missing bf_faded bf_legend]. rewrite shown_eq.
  split; [|split; [|split; [|split; reflexivity]]].
  - intros j m Hm. apply nth_error_nth. rewrite nth_error_map, Hm. cbn [option_map]. destruct (pt_others t); [reflexivity|now rewrite Nat.sub_0_r].
  - intros p. destruct (pa_special a).
    + rewrite in_seq. split.
      * intros H. exists p. split; [apply nth_error_shown_all; lia|lia].
      * intros (row & E & H). assert (Lp : p < nb + pt_specials t + (if pa_missing a then 1 else 0)).
        { assert (p < List.length (rows_shown nb (pt_specials t) true (pa_missing a))) as L by (apply nth_error_Some; congruence). now rewrite rows_shown_length in L. }
        rewrite nth_error_shown_all in E by exact Lp. injection E as <-. lia.
    + split; [intros []|]. intros (row & E & H). apply nth_error_In in E. unfold rows_shown in E. rewrite !in_app_iff, in_seq in E.
      destruct E as [E|[[]|E]]; [lia|]. destruct (pa_missing a); [destruct E as [<-|[]]; lia|destruct E].
  - intros p. destruct (pa_missing a) eqn:Em.
    + destruct (pa_special a).
      * split; [intros [<-|[]]; apply nth_error_shown_all; lia|]. intros E. left.
        assert (Lp : p < nb + pt_specials t + 1).
        { assert (p < List.length (rows_shown nb (pt_specials t) true true)) as L by (apply nth_error_Some; congruence). now rewrite rows_shown_length in L. }
        rewrite nth_error_shown_all in E by exact Lp. congruence.
      * split; [intros [<-|[]]; apply nth_error_shown_last|]. intros E. left.
        destruct (Nat.lt_trichotomy p nb) as [H|[H|H]]; [rewrite nth_error_shown_lt in E by exact H; injection E as E; lia|auto|].
        assert (p < List.length (rows_shown nb (pt_specials t) false true)) as L by (apply nth_error_Some; congruence). rewrite rows_shown_length in L. lia.
    + split; [intros []|]. intros E. apply nth_error_In in E. unfold rows_shown in E. rewrite !in_app_iff, in_seq in E.
      destruct E as [E|[E|E]]; [lia| |destruct E]. destruct (pa_special a); [apply in_seq in E; lia|destruct E].
Qed.
Print Assumptions C89_bars.

(** The markers show the metric of the rows shown exactly when the special rows are drawn, or the missing row is not, or the two rows
    happen to have the same value: without the special rows, the marker of the missing bar is at the height of the first special row. *)
Theorem C89_markers : forall t nb text a f, well_formed t nb -> List.length text = rows_of t nb -> plot1 t (Some text) a = Ok (FBin f) ->
  (markers_show t nb a f <-> pa_special a = true \/ pa_missing a = false \/
     forall m, In m (pt_metric t (pa_metric a)) -> nth_error m nb = nth_error m (nb + pt_specials t)).
Proof.
  intros t nb text a f HW HT E. assert (C : accepted t a /\ ~ actual_request t a /\ plot_bins t text a = Ok f).
  { destruct (pt_kind t) eqn:K.
    3: { pose proof (plot1_cases t nb text a HW HT ltac:(intros [G _]; congruence)) as C. now rewrite E in C. }
    all: assert (NA : ~ actual_request t a) by
      (intros [_ G]; unfold plot1 in E; destruct (check_plot t a); [discriminate|]; unfold actual in E; rewrite G, K in E; cbn [String.eqb Ascii.eqb Bool.eqb] in E;
       destruct (pt_range t) as [[lo hi]|]; [|discriminate]; unfold rbind in E; destruct (plot_actual t a lo hi); [|discriminate]; destruct (pa_save_ok a); discriminate);
      pose proof (plot1_cases t nb text a HW HT ltac:(tauto)) as C; now rewrite E in C. }
  destruct C as (_ & _ & C). rewrite (plot_bins_eq t nb a text HW HT) in C. injection C as <-.
  destruct HW as (Hnb & _ & _ & _ & H5 & _). unfold markers_show. cbn [bf_lines bf_points].
  set (k := pt_specials t). set (sp := pa_special a) in *. set (ms := pa_missing a) in *.
  assert (D : forall j m, nth_error (pt_metric t (pa_metric a)) j = Some m -> forall p v,
     In (p, v) (nth j (map (fun m => map (fun row => (row, nth row m None)) (seq 0 (nb - (if pt_others t then 1 else 0)))) (pt_metric t (pa_metric a))) [] ++
                nth j (map (fun m => map (fun p => (p, nth p m None)) (singles t nb a)) (pt_metric t (pa_metric a))) []) <->
     p < List.length (shown t nb a) /\ nth_error m p = Some v).
  { intros j m Hm p v. rewrite (nth_error_nth _ _ _ (eq_trans (nth_error_map _ _ _) (f_equal (option_map _) Hm))).
    rewrite (nth_error_nth (map (fun m => map (fun p => (p, nth p m None)) (singles t nb a)) _) j [] (eq_trans (nth_error_map _ _ _) (f_equal (option_map _) Hm))).
    pose proof (H5 _ _ (nth_error_In _ _ Hm)) as Lm. unfold rows_of in Lm. fold k in Lm.
    rewrite <- map_app, in_map_iff.
    assert (P : forall q, In q (seq 0 (nb - (if pt_others t then 1 else 0)) ++ singles t nb a) <-> q < List.length (shown t nb a)).
    { intros q. rewrite shown_eq, rows_shown_length. unfold singles. fold sp ms k. rewrite !in_app_iff, in_seq. split.
      - intros [H|[H|[H|H]]].
        + destruct sp, ms; lia.
        + destruct (pt_others t); [destruct H as [<-|[]]; destruct sp, ms; lia|destruct H].
        + destruct sp; [apply in_seq in H; destruct ms; lia|destruct H].
        + destruct ms; [destruct H as [<-|[]]; destruct sp; lia|destruct H].
      - intros H. destruct (Nat.lt_ge_cases q nb) as [L|L].
        + destruct (pt_others t); [|left; lia]. destruct (Nat.eq_dec q (nb - 1)) as [->|N]; [right; left; now left|left; lia].
        + right. right. destruct sp.
          * destruct (Nat.lt_ge_cases q (nb + k)) as [L2|L2]; [left; apply in_seq; lia|]. right. destruct ms; [left; lia|lia].
          * right. destruct ms; [left; lia|lia]. }
    split.
    - intros (q & Eq & Hq). injection Eq as <- <-. apply P in Hq. split; [exact Hq|]. apply nth_error_nth'.
      rewrite shown_eq, rows_shown_length in Hq. fold sp ms k in Hq. rewrite Lm. destruct sp, ms; lia.
    - intros (Hq & Ev). exists p. split; [f_equal; now apply nth_error_nth|now apply P]. }
  split.
  - intros H. destruct sp eqn:Es; [auto|]. destruct ms eqn:Em; [|auto]. right. right. intros m Hm. apply In_nth_error in Hm as (j & Hj).
    specialize (H j m Hj nb). pose proof (H5 _ _ (nth_error_In _ _ Hj)) as Lm. unfold rows_of in Lm.
    assert (SL : nth_error (shown t nb a) nb = Some (nb + k)) by (rewrite shown_eq; fold sp ms; rewrite Es, Em; apply nth_error_shown_last).
    destruct (nth_error m (nb + pt_specials t)) as [v|] eqn:Ev; [|apply nth_error_None in Ev; lia].
    assert (G : exists row, nth_error (shown t nb a) nb = Some row /\ nth_error m row = Some v) by (exists (nb + k); auto).
    apply H in G. apply (D j m Hj) in G. destruct G as [_ G]. rewrite G. symmetry. exact Ev.
  - intros H j m Hj p v. rewrite (D j m Hj). pose proof (H5 _ _ (nth_error_In _ _ Hj)) as Lm. unfold rows_of in Lm. fold k in Lm. rewrite shown_eq. fold sp ms k. split.
    + intros (Hp & Ev). destruct sp eqn:Es.
      * exists p. split; [|exact Ev]. apply nth_error_shown_all. rewrite rows_shown_length in Hp. exact Hp.
      * destruct (Nat.lt_ge_cases p nb) as [L|L]; [exists p; split; [now apply nth_error_shown_lt|exact Ev]|].
        rewrite rows_shown_length in Hp. destruct ms eqn:Em; [|lia]. replace p with nb in * by lia. exists (nb + k). split; [apply nth_error_shown_last|].
        destruct H as [H|[H|H]]; [discriminate|discriminate|]. now rewrite <- (H m (nth_error_In _ _ Hj)).
    + intros (row & Er & Ev). assert (Hp : p < List.length (rows_shown nb k sp ms)) by (apply nth_error_Some; congruence). split; [exact Hp|].
      destruct sp eqn:Es.
      * rewrite nth_error_shown_all in Er by (rewrite rows_shown_length in Hp; exact Hp). injection Er as <-. exact Ev.
      * destruct (Nat.lt_ge_cases p nb) as [L|L]; [rewrite nth_error_shown_lt in Er by exact L; injection Er as <-; exact Ev|].
        rewrite rows_shown_length in Hp. destruct ms eqn:Em; [|lia]. replace p with nb in * by lia. rewrite nth_error_shown_last in Er. injection Er as <-.
        destruct H as [H|[H|H]]; [discriminate|discriminate|]. now rewrite (H m (nth_error_In _ _ Hj)).
Qed.
Print Assumptions C89_markers.

(** The labels under the bars are those of the rows shown, unless the special rows are hidden and there are none or several of them. *)
Theorem C89_labels : forall t nb text a f, well_formed t nb -> List.length text = rows_of t nb -> accepted t a -> plot1 t (Some text) a = Ok (FBin f) ->
  (labels_show t nb a text f <-> pa_labels a = false \/ pa_special a = true \/ pt_specials t = 1).
Proof.
  intros t nb text a f HW HT HA E.
  assert (NA : ~ actual_request t a).
  { intros AR. destruct HA as (_ & _ & _ & _ & _ & _ & A7). destruct (A7 AR) as (_ & _ & A8). destruct AR as [G1 G2]. unfold plot1 in E. destruct (check_plot t a); [discriminate|]. unfold actual in E. rewrite G2 in E.
    cbn [String.eqb Ascii.eqb Bool.eqb] in E. destruct (pt_range t) as [[lo hi]|]; [|congruence]. destruct (pt_kind t); [| |congruence]; unfold rbind in E; destruct (plot_actual t a lo hi); try discriminate; destruct (pa_save_ok a); discriminate. }
  pose proof (plot1_cases t nb text a HW HT ltac:(tauto)) as C. rewrite E in C. destruct C as (_ & _ & C).
  rewrite (plot_bins_eq t nb a text HW HT) in C. injection C as <-. unfold labels_show. cbn [bf_ticks]. apply (tick_labels_iff t nb a text HW).
Qed.
Print Assumptions C89_labels.

(** style="actual": bar i spans from the previous split to the next one, with the counts of row i; the segment and the marker of the bin
    are at the height of its metric, the marker in the middle; the vertical lines are the splits. *)
Theorem C89_actual : forall t nb text a lo hi, well_formed t nb -> nb = S (List.length (pt_splits t)) -> List.length text = rows_of t nb ->
  accepted t a -> actual_request t a -> pt_range t = Some (lo, hi) ->
  exists f, plot1 t (Some text) a = Ok (FActual f) /\ actual_shows t nb a lo hi f.
Proof.
  intros t nb text a lo hi HW HN HT HA HR ER. pose proof (plot1_cases t nb text a HW HT ltac:(auto)) as C.
  destruct (plot1 t (Some text) a) as [[f|f]|e]; [tauto| |tauto]. exists f. split; [reflexivity|].
  destruct C as (_ & _ & lo' & hi' & E1 & E2). rewrite ER in E1. injection E1 as <- <-.
  destruct (plot_actual_ok t nb a HW HN lo hi) as (f' & E & S). congruence.
Qed.
Print Assumptions C89_actual.

(** Over any history of calls of build() and plot(): the state is the labels of the last build(), and plot() changes nothing. *)
Theorem C89_history : forall t h d a, last_build h d ->
  snd (pexec t None (h ++ [PPlot a])) = snd (pexec t None h) ++ [match plot1 t (option_map (pt_text t) d) a with Ok f => Ok (VFigure f) | Err e => Err e end] /\
  fst (pexec t None (h ++ [PPlot a])) = fst (pexec t None h).
Proof.
  intros t h d a HL.
  assert (A : forall h st c, pexec t st (h ++ [c]) = (fst (pstep t (fst (pexec t st h)) c), snd (pexec t st h) ++ [snd (pstep t (fst (pexec t st h)) c)])).
  { clear. induction h as [|x h IH]; intros st c; cbn [app pexec].
    - cbn [fst snd app]. destruct (pstep t st c). reflexivity.
    - destruct (pstep t st x) as [st' v]. rewrite IH. destruct (pexec t st' h) as [st'' l]. cbn [fst snd]. reflexivity. }
  assert (B : forall h st, (forall d', ~ In (PBuild None d') h) -> fst (pexec t st h) = st).
  { clear. induction h as [|x h IH]; intros st H; [reflexivity|]. cbn [pexec]. destruct (pstep t st x) as [st' v] eqn:E.
    assert (st' = st) as ->. { destruct x as [[e|] d|a]; cbn [pstep] in E; [congruence|exfalso; apply (H d); now left|congruence]. }
    specialize (IH st ltac:(intros d' Hd; apply (H d'); now right)). destruct (pexec t st h). exact IH. }
  assert (C : fst (pexec t None h) = option_map (pt_text t) d).
  { destruct d as [d|]; cbn [last_build option_map] in *; [|now apply B].
    destruct HL as (h1 & h2 & -> & H2). replace (h1 ++ PBuild None d :: h2) with ((h1 ++ [PBuild None d]) ++ h2) by now rewrite <- app_assoc.
    assert (G : forall h1 h2 st, fst (pexec t st (h1 ++ h2)) = fst (pexec t (fst (pexec t st h1)) h2)).
    { clear. induction h1 as [|x h1 IH]; intros h2 st; [reflexivity|]. cbn [app pexec]. destruct (pstep t st x) as [st' v]. specialize (IH h2 st').
      destruct (pexec t st' (h1 ++ h2)), (pexec t st' h1). exact IH. }
    rewrite G, A. cbn [fst pstep]. now apply B. }
  rewrite A, C. cbn [pstep]. split; reflexivity.
Qed.
Print Assumptions C89_history.

(** ** The tables of fitted objects *)

Lemma weight_of_nonneg q : forall l, (forall r : row, In r l -> (0 <= row_w r)%Z) -> (0 <= weight_of q l)%Z.
Proof.
  induction l as [|r l IH]; intros HR; [cbn; lia|]. cbn [weight_of]. specialize (IH ltac:(intros r' Hr'; apply HR; now right)).
  pose proof (HR r (or_introl eq_refl)). destruct (q r); lia.
Qed.
Lemma fold_zsum l : fold_right Z.add 0%Z l = zsum l.
Proof. induction l as [|x l IH]; [reflexivity|]. cbn [fold_right zsum]. now rewrite IH. Qed.
Lemma binary_values_hold key U t k L : List.length (t_nev t) = L -> List.length (t_ev t) = L -> MetricsSpec.counts_ok (t_nev t) -> MetricsSpec.counts_ok (t_ev t) -> k < L ->
  binary_values (binary_ptable key U t) k.
Proof.
  intros LN LE CN CE Hk. unfold binary_values, count_in. cbn [binary_ptable pt_series pt_metric nth hd String.eqb Ascii.eqb Bool.eqb].
  set (e := nth k (t_ev t) 0%Z). set (n := nth k (t_nev t) 0%Z).
  assert (Hn : nth_error (t_nev t) k = Some n) by (apply nth_error_nth'; lia). assert (He : nth_error (t_ev t) k = Some e) by (apply nth_error_nth'; lia).
  destruct (cols_lengths (t_nev t) (t_ev t) L LN LE) as (_ & _ & C1 & C2 & C3).
  assert (N : forall l : list R, List.length l = L -> nth k (map Some l) None = Some (nth k l 0%R)).
  { intros l Hl. apply nth_error_nth. rewrite nth_error_map, (nth_error_nth' l 0%R) by lia. reflexivity. }
  rewrite (N _ C1), (N _ C2), (N _ (C3 jeffrey1)). split.
  - intros He0 Hn0. pose proof (MetricsP.zsum_pos_In _ _ CE (nth_error_In _ _ He)). pose proof (MetricsP.zsum_pos_In _ _ CN (nth_error_In _ _ Hn)).
    destruct (cols_row (t_nev t) (t_ev t) L LN LE CN CE ltac:(lia) ltac:(lia) k Hk) as (_ & _ & _ & _ & A & _). fold e n in A.
    destruct (A He0 Hn0) as (A1 & _ & A2 & A3). rewrite A1, A2, A3. split; [reflexivity|]. split; [reflexivity|]. f_equal. unfold jeffrey1, xlogy.
    destruct (Req_EM_T _ 0) as [E|E]; [rewrite E; lra|reflexivity].
  - intros H. assert (B : (Z.ltb 0 e && Z.ltb 0 n)%bool = false) by (destruct (Z.ltb_spec 0 e), (Z.ltb_spec 0 n); cbn [andb]; try reflexivity; exfalso; tauto).
    pose proof (event_rate_nth' _ _ _ _ _ Hn He) as A1. pose proof (woe_nth _ _ _ _ _ Hn He) as A2. rewrite B in A1, A2.
    assert (A3 : nth_error (div_rows (t_nev t) (t_ev t) jeffrey1) k = Some 0%R).
    { unfold div_rows. rewrite (TwoDCR.column_nth (fun e n => if (Z.ltb 0 e && Z.ltb 0 n)%bool then jeffrey1 (IZR e / Metrics.t_ev (t_ev t))%R (IZR n / Metrics.t_nev (t_nev t))%R else 0%R) _ _ _ _ _ He Hn). now rewrite B. }
    rewrite (nth_error_nth _ _ _ A1), (nth_error_nth _ _ _ A3). split; [reflexivity|]. split; [|reflexivity]. now rewrite (nth_error_nth _ _ _ A2).
Qed.

(** A numerical OptimalBinning after any history of calls, the last one a successful fit on x: the table is well formed, the bar of row k
    is the training records that transform sends to row k, its marker their event rate, WoE or IV, and under style="actual" every clean training value lies horizontally within
    the bar that counts it. *)
Theorem C89_fitted_binary : forall e x o o1 key U, e_wu e = 1%Z -> answers_fit e -> prebin_sorted e ->
  (forall c, o_user o <> Some (c, [])) ->
  List.length (d_x x) = List.length (d_y x) -> List.length (d_x x) = List.length (d_w x) ->
  ~ In YNaN (d_y x) -> ~ In XNaN (flat_codes (e_special e)) -> sp_disjoint (e_special e) ->
  fit e x o = (o1, Ok tt) ->
  exists t lo hi, o_table o1 = Some t /\ let p := binary_ptable key U t in let nb := S (List.length (t_splits t)) in
    let weight_to := fun nonevent k => weight_of (fun r => Bool.eqb (y_is0 (row_y r)) nonevent &&
         match transform e o1 (Indices Empirical Empirical) [row_x r] with
         | Ok (AIndex [z]) => Z.eqb z (Z.of_nat k) | _ => false end) (rows (d_x x) (d_y x) (d_w x)) in
    pt_specials p = n_special (t_special t) /\ t_special t = e_special e /\
    well_formed p nb /\ pt_range p = Some (lo, hi) /\
    (forall k, k < rows_of p nb -> count_in p 0 k = weight_to false k /\ below p 0 k = 0%Z /\ count_in p 1 k = weight_to true k /\ below p 1 k = weight_to false k) /\
    ((forall w, In w (d_w x) -> 0 <= w)%Z -> forall k, k < rows_of p nb -> binary_values p k) /\
    forall z, (exists y w, In (XNum z, y, w) (rows (d_x x) (d_y x) (d_w x)) /\ ~ In (XNum z) (flat_codes (e_special e))) ->
      exists i, in_bin_i (t_splits t) i z /\ i < nb /\ (left_edge p lo i <= z <= right_edge p hi i)%Z.
Proof.
  intros e x o o1 key U W1 AF PS NU L1 L2 NY NX SD F.
  destruct (C03_after_any_history e x o o1 W1 AF PS NU L1 L2 NY NX SD F) as (t & ET & ES & EC & LN & LE & HC).
  destruct (fit_range e x o o1 F) as (t' & ET' & MN & MX & NE). rewrite ET in ET'. injection ET' as <-.
  assert (NDS : nondecreasing (t_splits t) /\ t_special t = e_special e).
  { destruct (fit_table e x o o1 F) as (t' & a & b & s & c' & T & _ & _ & Ts & _ & Tsp & _ & _ & _ & _ & _ & _ & _ & _ & OS & _).
    rewrite ET in T. injection T as <-. split; [|exact Tsp]. rewrite Ts.
    destruct (fit_core e x o o1 PS NU F) as (sf & sb & sn & fx & us & s0 & f & ND & FF & [c FS] & _). rewrite OS in FS. injection FS as _ ->.
    exact (subseq_nondecr _ _ (proj1 (fit_subseq _ _ _ _ _ _ _ _ _ _ _ ND FF)) ND). }
  destruct NDS as [NDS ESp].
  exists t, (Lifecycle.t_min t), (Lifecycle.t_max t). split; [exact ET|]. cbv zeta.
  split; [reflexivity|]. split; [exact ESp|].
  assert (RO : rows_of (binary_ptable key U t) (S (List.length (t_splits t))) = S (List.length (t_splits t)) + n_special (e_special e) + 1).
  { unfold rows_of. cbn [binary_ptable pt_specials]. now rewrite ESp. }
  split; [|split; [reflexivity|split; [|split]]].
  - unfold well_formed. rewrite RO. cbn [binary_ptable pt_others pt_series pt_metric pt_text pt_kind].
    split; [lia|]. split; [discriminate|]. split; [intros s [<-|[<-|[]]]; assumption|]. split; [discriminate|]. split; [|split; [|discriminate]].
    + intros name m [<-|[]]. rewrite map_length. destruct (TwoDTableS.cols_lengths (t_nev t) (t_ev t) _ LN LE) as (_ & _ & C1 & C2 & C3). destruct (_ =? _)%string; [exact C2|]. destruct (_ =? _)%string; [exact C1|apply C3].
    + intros d. unfold row_labels. rewrite !app_length, labels_len, ESp. destruct (e_special e); cbn [n_special List.length]; rewrite ?map_length; lia.
  - intros k Hk. rewrite RO in Hk. destruct (HC k Hk) as (H1 & H2). unfold count_in, below. cbn [binary_ptable pt_series seq map fold_right nth].
    rewrite (nth_error_nth _ _ _ H1), (nth_error_nth _ _ _ H2). unfold count_in. cbn [binary_ptable pt_series nth]. rewrite (nth_error_nth _ _ _ H2). rewrite Z.add_0_r. auto.
  - intros HWt k Hk. rewrite RO in Hk.
    assert (W : forall q, (0 <= weight_of q (rows (d_x x) (d_y x) (d_w x)))%Z).
    { intros q. assert (HR : forall r, In r (rows (d_x x) (d_y x) (d_w x)) -> (0 <= row_w r)%Z).
      { intros [[a b] w] Hr. cbn [row_w snd]. apply HWt. unfold rows in Hr. now apply in_combine_r in Hr. }
      now apply weight_of_nonneg. }
    apply binary_values_hold with (L := S (List.length (t_splits t)) + n_special (e_special e) + 1); [exact LN|exact LE| | |exact Hk].
    + intros c Hc. apply In_nth_error in Hc as (i & Hi). assert (Li : i < List.length (t_nev t)) by (apply nth_error_Some; congruence). rewrite LN in Li.
      destruct (HC i Li) as [H1 _]. rewrite Hi in H1. injection H1 as ->. apply W.
    + intros c Hc. apply In_nth_error in Hc as (i & Hi). assert (Li : i < List.length (t_ev t)) by (apply nth_error_Some; congruence). rewrite LE in Li.
      destruct (HC i Li) as [_ H1]. rewrite Hi in H1. injection H1 as ->. apply W.
  - intros z (y & w & Hin & Hns). exists (digitize (t_splits t) z). pose proof (digitize_in_bin (t_splits t) z NDS) as B. split; [exact B|].
    pose proof (digitize_le (t_splits t) z) as Lz. split; [lia|].
    assert (Hz : In z (map num (x_clean (split_masks (e_special e) (d_x x) (d_y x) (d_w x))))).
    { rewrite split_masks_filter by assumption. unfold out_of. cbn [x_clean]. apply in_map_iff. exists (XNum z). split; [reflexivity|]. apply in_map_iff.
      exists (XNum z, y, w). split; [reflexivity|]. apply filter_In. split; [exact Hin|]. unfold miss_b. cbn [row_x row_y fst snd x_isnull].
      assert (y <> YNaN). { intros ->. apply NY. apply (rows_In_y _ _ _ _ Hin). }
      rewrite (flat_codes_spec (e_special e) (XNum z, y, w)). cbn [row_x fst snd orb].
      destruct (isin (flat_codes (e_special e)) (XNum z)) eqn:I; [apply isin_In in I; contradiction|]. destruct y; [contradiction|reflexivity|reflexivity]. }
    pose proof (zmin_least _ NE) as [_ Hmin]. pose proof (zmax_greatest _ NE) as [_ Hmax]. specialize (Hmin z Hz). specialize (Hmax z Hz). rewrite <- MN in Hmin. rewrite <- MX in Hmax.
    unfold left_edge, right_edge. cbn [binary_ptable pt_splits]. apply in_bin_i_iff in B; [|exact Lz]. destruct B as [B1 B2]. split.
    + destruct (digitize (t_splits t) z) as [|j]; [exact Hmin|]. destruct (nth_error (t_splits t) j) as [q|] eqn:Eq; [now rewrite (nth_error_nth _ _ _ Eq)|]. apply nth_error_None in Eq. lia.
    + destruct (Nat.ltb_spec (digitize (t_splits t) z) (List.length (t_splits t))) as [Lt|Ge]; [|exact Hmax].
      destruct (nth_error (t_splits t) (digitize (t_splits t) z)) as [q|] eqn:Eq; [rewrite (nth_error_nth _ _ _ Eq); lia|]. apply nth_error_None in Eq. lia.
Qed.
Print Assumptions C89_fitted_binary.

Lemma row_classifier splits sp : nondecreasing splits -> exists p, classifies p splits sp.
Proof.
  intros Hn. exists (fun k r => match k_x r with
      | XNaN => (k =? S (List.length splits) + n_special sp)%nat
      | XNum z => if isin (flat_codes sp) (XNum z) then
          (S (List.length splits) <=? k)%nat &&
          match sp with SpNone => false | SpList _ => (k - S (List.length splits) =? 0)%nat
          | SpDict d => match nth_error d (k - S (List.length splits)) with Some kv => isin (snd kv) (XNum z) | None => false end end
        else (digitize splits z =? k)%nat end).
  intros k r. destruct (k_x r) as [|z]; cbn [CoreSpec.row_of]; [apply Nat.eqb_eq|].
  destruct (isin (flat_codes sp) (XNum z)) eqn:E.
  - rewrite andb_true_iff, Nat.leb_le. split.
    + intros [L H]. left. exists (k - S (List.length splits))%nat. split; [|lia]. destruct sp as [|l|d]; cbn [special_index]; [discriminate| |].
      * apply Nat.eqb_eq in H. split; [exact H|]. apply isin_In in E. exact E.
      * destruct (nth_error d _) as [kv|]; [|discriminate]. apply isin_In in H. eauto.
    + intros [(i & Hi & ->)|[Hc _]]; [|destruct Hc; apply isin_In; exact E]. split; [lia|].
      replace (S (List.length splits) + i - S (List.length splits))%nat with i by lia. destruct sp as [|l|d]; cbn [special_index] in Hi.
      * destruct Hi.
      * apply Nat.eqb_eq, Hi.
      * destruct Hi as (kv & A & B). rewrite A. apply isin_In. exact B.
  - rewrite Nat.eqb_eq. split.
    + intros <-. right. split; [intros Hx; apply isin_In in Hx; congruence|]. now apply digitize_in_bin.
    + intros [(i & Hi & ->)|[_ Hb]]; [apply special_index_in in Hi; congruence|]. eapply in_bin_unique; [exact Hn|apply digitize_in_bin; exact Hn|exact Hb].
Qed.

Lemma within_bar splits lo hi z : nondecreasing splits -> (lo <= z <= hi)%Z -> forall t, pt_splits t = splits ->
  exists i, in_bin_i splits i z /\ i < S (List.length splits) /\ (left_edge t lo i <= z <= right_edge t hi i)%Z.
Proof.
  intros NDS [Hmin Hmax] t Et. exists (digitize splits z). pose proof (digitize_in_bin splits z NDS) as B. split; [exact B|].
  pose proof (digitize_le splits z) as Lz. split; [lia|]. unfold left_edge, right_edge. rewrite Et. apply in_bin_i_iff in B; [|exact Lz]. destruct B as [B1 B2]. split.
  - destruct (digitize splits z) as [|j]; [exact Hmin|]. destruct (nth_error splits j) as [q|] eqn:Eq; [now rewrite (nth_error_nth _ _ _ Eq)|]. apply nth_error_None in Eq. lia.
  - destruct (Nat.ltb_spec (digitize splits z) (List.length splits)) as [Lt|Ge]; [|exact Hmax].
    destruct (nth_error splits (digitize splits z)) as [q|] eqn:Eq; [rewrite (nth_error_nth _ _ _ Eq); lia|]. apply nth_error_None in Eq. lia.
Qed.

(** A numerical ContinuousOptimalBinning after any history of calls, the last one a successful fit on d: the table is well formed, bar k
    and marker k show the weight, the mean, the documented WoE and IV of the training records of row k, and under style="actual" every
    clean training value lies horizontally within the bar that counts it. *)
Theorem C89_fitted_continuous : forall e o d o1 key U, c_answers_fit e -> c_prebin_sorted e -> targets_ok (cd_recs d) ->
  ~ In XNaN (flat_codes (ce_special e)) -> sp_disjoint (ce_special e) -> cfit e d o = (o1, Ok tt) ->
  exists t lo hi, co_table o1 = Some t /\ let pt := continuous_ptable key U t in let nb := S (List.length (ct_splits t)) in
    pt_specials pt = n_special (ce_special e) /\ well_formed pt nb /\ pt_range pt = Some (lo, hi) /\
    (forall p, classifies p (ct_splits t) (ce_special e) -> forall k, k < rows_of pt nb ->
       let l := filter (p k) (cd_recs d) in let mu := wmean (cd_recs d) in
       IZR (count_in pt 0 k) = weight l /\ below pt 0 k = 0%Z /\
       nth k (hd [] (pt_metric pt "mean")) None = Some (wmean l) /\
       nth k (hd [] (pt_metric pt "woe")) None = Some (wmean l - mu)%R /\
       nth k (hd [] (pt_metric pt "iv")) None = Some (Rabs (wmean l - mu) * (weight l / weight (cd_recs d)))%R) /\
    forall r z, In r (cd_recs d) -> k_x r = XNum z -> ~ In (XNum z) (flat_codes (ce_special e)) ->
      exists i, in_bin_i (ct_splits t) i z /\ i < nb /\ (left_edge pt lo i <= z <= right_edge pt hi i)%Z.
Proof.
  intros e o d o1 key U AF PS TO NX SD F.
  destruct (cfit_ok_table _ _ _ _ F) as (t & rows & T & R & SP & RW & (fx & n & f0 & s0 & ND & L) & _ & _ & FT & ES & CN & MN & MX & _).
  destruct (L (co_old o)) as (f & FC & FS & FR). specialize (ND PS). pose proof (csolver_ok e fx n AF) as SO. rewrite <- R in FR.
  pose proof (ContTableQ.ct_nondecr _ _ _ _ _ _ _ _ ND SO FC) as NDS. rewrite FS in NDS.
  destruct (row_classifier (ct_splits t) (ce_special e) NDS) as (p0 & HP0). rewrite <- FS in HP0.
  destruct (C69_columns _ _ _ _ _ _ _ _ _ ND SO FC TO NX SD HP0) as [LR _]. rewrite FR, FS in LR. unfold n_rows in LR.
  exists t, (ct_min t), (ct_max t). split; [exact T|]. cbv zeta.
  assert (RO : rows_of (continuous_ptable key U t) (S (List.length (ct_splits t))) = List.length (ct_rows t)).
  { unfold rows_of. cbn [continuous_ptable pt_specials]. rewrite ES, LR. lia. }
  split; [cbn [continuous_ptable pt_specials]; now rewrite ES|]. split; [|split; [reflexivity|split]].
  - unfold well_formed. rewrite RO. cbn [continuous_ptable pt_others pt_series pt_metric pt_text pt_kind].
    split; [lia|]. split; [discriminate|]. split; [intros s [<-|[]]; now rewrite map_length|]. split; [discriminate|]. split; [|split; [|discriminate]].
    + intros name m [<-|[]]. now rewrite map_length.
    + intros u. unfold row_labels. rewrite !app_length, labels_len, ES, LR. destruct (ce_special e); cbn [n_special List.length]; rewrite ?map_length; lia.
  - intros p HP k Hk. rewrite RO in Hk. rewrite <- FS in HP. destruct (nth_error (ct_rows t) k) as [row|] eqn:Er; [|apply nth_error_None in Er; lia].
    assert (Er' : nth_error (cf_rows f) k = Some row) by now rewrite FR.
    destruct (proj2 (C69_columns _ _ _ _ _ _ _ _ _ ND SO FC TO NX SD HP) k row Er') as (C1 & _ & _ & C2 & _ & C3 & C4). rewrite FR in C3, C4.
    assert (N : forall (B : Type) (g : trow -> B) dflt, nth k (map g (ct_rows t)) dflt = g row).
    { intros B g dflt. apply nth_error_nth. rewrite nth_error_map, Er. reflexivity. }
    cbv zeta. unfold count_in, below. cbn [continuous_ptable pt_series pt_metric nth hd seq map fold_right String.eqb Ascii.eqb Bool.eqb]. rewrite !N. auto.
  - intros r z Hr Hz Hns. apply within_bar; [exact NDS| |reflexivity].
    assert (Iz : In z (map s_x (clean_data e d))).
    { unfold clean_data. rewrite map_map. apply in_map_iff. exists r. split; [unfold to_ksample; cbn [s_x]; rewrite Hz; reflexivity|].
      apply filter_In. split; [exact Hr|]. unfold k_clean, k_missing. pose proof (proj1 TO r Hr) as [_ Hy]. rewrite Hz. cbn [x_isnull].
      rewrite k_special_isin, Hz. destruct (isin (flat_codes (ce_special e)) (XNum z)) eqn:I; [apply isin_In in I; contradiction|]. destruct (k_y r); [reflexivity|congruence]. }
    assert (NE : map s_x (clean_data e d) <> []) by (intros E0; rewrite E0 in Iz; destruct Iz).
    rewrite MN, MX. destruct (zmin_least _ NE) as [_ Hmin]. destruct (zmax_greatest _ NE) as [_ Hmax]. split; auto.
Qed.
Print Assumptions C89_fitted_continuous.


(** A MulticlassOptimalBinning after any history of calls, the last one a successful fit with at most 100 classes: the table is well
    formed, bar k of class c shows the training records of class c in row k, and marker k of line c their share in the row (0 in an
    empty row). With more than 100 classes no figure can be drawn. *)
Theorem C89_fitted_multiclass : forall e o rs o1 key name U, mc_answers_fit e -> mc_prebin_sorted e ->
  ~ In XNaN (flat_codes (me_special e)) -> mc_has_clean e rs -> mfit e rs o = (o1, Ok tt) ->
  exists t, mo_table o1 = Some t /\ let pt := multiclass_ptable key name U t in let nb := S (List.length (mt_splits t)) in
    mc_labels e rs (mt_classes t) /\ List.length (pt_series pt) = List.length (mt_classes t) /\ pt_specials pt = n_special (me_special e) /\
    (List.length (mt_classes t) <= 100 -> well_formed pt nb) /\
    (100 < List.length (mt_classes t) -> forall d a, exists err, plot1 pt (Some (pt_text pt d)) a = Err err) /\
    forall c cl, nth_error (mt_classes t) c = Some cl -> forall k p, k < rows_of pt nb ->
      (forall r, p r = true <-> m_y r = Some cl /\ row_of (mt_splits t) (me_special e) (m_x r) k) ->
      count_in pt c k = Z.of_nat (List.length (filter p rs)) /\ nth c (pt_names pt) EmptyString = name cl /\
      forall m, nth k (nth c (pt_metric pt m) []) None =
        Some (if (0 <? count_in pt c k)%Z then IZR (count_in pt c k) / IZR (below pt (List.length (mt_classes t)) k) else 0)%R.
Proof.
  intros e o rs o1 key name U AF PS NN HCL F.
  destruct (C84_table_after_any_history e o rs o1 AF PS NN F) as (t & T & _ & _ & HL & HC & HR).
  assert (SPC : mt_special t = me_special e).
  { destruct (mfit_ok _ _ _ _ F) as (fx & m & f' & u' & s0 & f & _ & _ & T' & _). rewrite T in T'. injection T' as ->. reflexivity. }
  exists t. split; [exact T|]. cbv zeta. split; [exact HL|]. split; [exact HC|].
  split; [cbn [multiclass_ptable pt_specials]; now rewrite SPC|].
  set (m := S (List.length (mt_splits t)) + n_special (me_special e) + 1) in *.
  assert (RO : rows_of (multiclass_ptable key name U t) (S (List.length (mt_splits t))) = m).
  { unfold rows_of. cbn [multiclass_ptable pt_specials]. now rewrite SPC. }
  assert (HS : forall s, In s (mt_cols t) -> List.length s = m).
  { intros s Hs. apply In_nth_error in Hs as (c & Hc). assert (Lc : c < List.length (mt_classes t)) by (rewrite <- HC; apply nth_error_Some; congruence).
    destruct (nth_error (mt_classes t) c) as [cl|] eqn:Ecl; [|apply nth_error_None in Ecl; lia]. destruct (HR c cl Ecl) as (_ & col & Ec & Lcol & _). congruence. }
  assert (NC : mt_cols t <> []).
  { destruct HCL as (r & Hr & CL). assert (exists cl, In cl (mt_classes t)) as (cl & Hcl).
    { destruct CL as (z & y & A & B & C). exists y. apply (proj2 HL). exists r. split; [exact Hr|]. split; [exists z, y; auto|exact B]. }
    intros E0. rewrite E0 in HC. destruct (mt_classes t); [destruct Hcl|discriminate]. }
  split; [|split].
  - intros H100. unfold well_formed. rewrite RO. cbn [multiclass_ptable pt_others pt_series pt_metric pt_text pt_kind].
    assert (MR : mt_rows (mt_cols t) = m). { destruct (mt_cols t) as [|c r] eqn:Ec; [congruence|]. apply HS. now left. }
    split; [lia|]. split; [exact NC|]. split; [exact HS|]. split; [|split; [|split]].
    + intros _ E. apply map_eq_nil in E. destruct (mt_cols t); [congruence|discriminate].
    + intros _ q Hq. apply in_map_iff in Hq as (c & <- & _). now rewrite map_length, seq_length.
    + intros u. unfold row_labels. rewrite !app_length, labels_len, SPC. unfold m. destruct (me_special e); cbn [n_special List.length]; rewrite ?map_length; lia.
    + intros _. lia.
  - intros H100 d a. unfold plot1. destruct (check_plot _ a) as [err|]; [eauto|]. cbn [multiclass_ptable pt_kind]. unfold plot_bins. cbn [multiclass_ptable pt_kind pt_series].
    unfold n_colours. destruct (Nat.ltb_spec 100 (List.length (mt_cols t))); [|lia]. exists IndexError. reflexivity.
  - intros c cl Hc k p Hk Hp. rewrite RO in Hk. destruct (HR c cl Hc) as (_ & col & Ec & _ & HK). unfold count_in. cbn [multiclass_ptable pt_series].
    rewrite (nth_error_nth _ _ _ Ec). split; [apply nth_error_nth; now apply HK|]. split.
    { cbn [multiclass_ptable pt_names]. apply nth_error_nth. rewrite nth_error_map, Hc. reflexivity. }
    intros q. assert (Lc : c < List.length (mt_cols t)) by (apply nth_error_Some; congruence). cbn [multiclass_ptable pt_metric].
    assert (MR : mt_rows (mt_cols t) = m). { destruct (mt_cols t) as [|c0 r] eqn:Ec0; [congruence|]. apply HS. now left. }
    assert (N : nth c (map (fun c => map (fun k => Some (mb_rate (mt_cols t) k c)) (seq 0 (mt_rows (mt_cols t)))) (seq 0 (List.length (mt_cols t)))) [] = map (fun k => Some (mb_rate (mt_cols t) k c)) (seq 0 m)).
    { apply nth_error_nth. rewrite nth_error_map, (nth_error_nth' _ 0) by (rewrite seq_length; exact Lc). cbn [option_map]. rewrite seq_nth by exact Lc. now rewrite MR. }
    rewrite N. apply nth_error_nth. rewrite nth_error_map, (nth_error_nth' _ 0) by (rewrite seq_length; exact Hk). cbn [option_map]. rewrite seq_nth by exact Hk. cbn [Nat.add].
    assert (BL : below (multiclass_ptable key name U t) (List.length (mt_classes t)) k = mt_row (mt_cols t) k).
    { unfold below, mt_row, count_in. rewrite fold_zsum. cbn [multiclass_ptable pt_series]. rewrite <- HC. f_equal. transitivity (map (fun col => nth k col 0%Z) (map (fun r => nth r (mt_cols t) []) (seq 0 (List.length (mt_cols t))))); [now rewrite map_map|]. now rewrite <- (list_seq [] (mt_cols t)). }
    rewrite BL. unfold mb_rate, mt_cell. rewrite (nth_error_nth (mt_cols t) c [] Ec). reflexivity.
Qed.
Print Assumptions C89_fitted_multiclass.

(** ** Refutations, on an object fitted to the data of [pl_d]: special codes {1: -9, 2: -8}, bins cut at 4, 6 and 8 *)
Definition pl_env : env :=
  mkE 1%Z IV (SpDict [(1%Z, [XNum (-9)%Z]); (2%Z, [XNum (-8)%Z])]) PyList (fun _ => Ok [4; 6; 8]%Z)
      (fun _ _ _ nev _ => match nev with [] => Err ValueError | _ => Ok (0%Z, repeat true (List.length nev)) end).
Definition pl_d : data :=
  mkD (map XNum [1; 2; 5; 5; 7; 9; 10; 7] ++ [XNaN; XNum (-9); XNum (-9); XNum (-8)])%Z [Y0; Y1; Y1; Y0; Y1; Y0; Y1; Y0; Y1; Y0; Y1; Y0] (repeat 1%Z 12) false.
Definition pl_table : table :=
  match o_table (fst (fit pl_env pl_d (new None None))) with Some t => t | None => mkT SpNone PyList [] PyList [] [] 0 0 false PyList None false false end.
Definition pl_a (m : string) (labels : bool) : pargs := mkPA m true "bin" true true true false true labels.
Lemma pl_fit : exists o1, fit pl_env pl_d (new None None) = (o1, Ok tt) /\ o_table o1 = Some pl_table.
Proof. eexists. split; vm_compute; reflexivity. Qed.
Lemma pl_hyps : answers_fit pl_env /\ prebin_sorted pl_env /\ ~ In YNaN (d_y pl_d) /\ ~ In XNaN (flat_codes (e_special pl_env)) /\ sp_disjoint (e_special pl_env).
Proof.
  split; [|split; [|split; [|split]]].
  - intros f b n nev ev st sol H. cbn in H. destruct nev as [|a r]; [discriminate|]. injection H as <- <-.
    cbn [List.length repeat]. rewrite repeat_length. split; [reflexivity|]. clear. cbn [last].
    induction r as [|x r IH]; [reflexivity|]. cbn [List.length repeat]. cbn [List.length repeat] in IH. destruct (repeat true (List.length r)) eqn:E; [reflexivity|exact IH].
  - intros cs s H. cbn in H. injection H as <-. repeat constructor; lia.
  - cbn. intuition discriminate.
  - cbn. intuition discriminate.
  - intros i j a b x Ha Hb. destruct i as [|[|i]], j as [|[|j]]; cbn in Ha, Hb; try (injection Ha as <-); try (injection Hb as <-); cbn; intuition (subst; try congruence; try discriminate); try (destruct i; discriminate); try (destruct j; discriminate).
Qed.
Lemma pl_well_formed key U : well_formed (binary_ptable key U pl_table) 4.
Proof.
  destruct pl_hyps as (A & B & C & D & E). destruct pl_fit as (o1 & F & T).
  destruct (C89_fitted_binary pl_env pl_d (new None None) o1 key U eq_refl A B ltac:(discriminate) eq_refl eq_refl C D E F) as (t & lo & hi & T' & _ & _ & W & _).
  rewrite T in T'. injection T' as <-. exact W.
Qed.
Lemma pl_accepted key U m labels : In m ["woe"; "event_rate"; "iv"]%string -> accepted (binary_ptable key U pl_table) (pl_a m labels) /\ ~ actual_request (binary_ptable key U pl_table) (pl_a m labels).
Proof.
  intros Hm. assert (NA : ~ actual_request (binary_ptable key U pl_table) (pl_a m labels)) by (intros [_ G]; discriminate G).
  split; [|exact NA]. do 4 (split; [reflexivity|]). split; [exact Hm|]. split; [intros _; left; reflexivity|]. intros G. contradiction.
Qed.
Lemma pl_text key U d : List.length (pt_text (binary_ptable key U pl_table) d) = rows_of (binary_ptable key U pl_table) 4.
Proof. apply (pl_well_formed key U). Qed.

(** With add_special=False and add_missing=True, the marker of the missing bar is not at the value of the missing row. *)
Theorem C89_missing_marker_refuted : exists e x o1 t nb a, answers_fit e /\ prebin_sorted e /\ ~ In YNaN (d_y x) /\ ~ In XNaN (flat_codes (e_special e)) /\ sp_disjoint (e_special e) /\
  fit e x (new None None) = (o1, Ok tt) /\ o_table o1 = Some t /\
  forall key U d, exists f, plot1 (binary_ptable key U t) (Some (pt_text (binary_ptable key U t) d)) a = Ok (FBin f) /\ ~ markers_show (binary_ptable key U t) nb a f.
Proof.
  destruct pl_hyps as (A & B & C & D & E). destruct pl_fit as (o1 & F & T).
  exists pl_env, pl_d, o1, pl_table, 4, (pl_a "event_rate" false). do 5 (split; [assumption|]). split; [exact F|]. split; [exact T|]. intros key U d.
  destruct (pl_accepted key U "event_rate" false ltac:(cbn; tauto)) as [HA HN].
  destruct (C89_bars _ 4 _ _ (pl_well_formed key U) (pl_text key U d) HA HN) as (f & Ef & _). exists f. split; [exact Ef|].
  rewrite (C89_markers _ 4 _ _ f (pl_well_formed key U) (pl_text key U d) Ef). intros [G|[G|G]]; [discriminate G|discriminate G|].
  specialize (G _ (or_introl eq_refl)). change (pt_specials (binary_ptable key U pl_table)) with 2 in G. change (4 + 2) with 6 in G.
  change (pa_metric (pl_a "event_rate" false)) with "event_rate"%string in G. cbn [String.eqb Ascii.eqb Bool.eqb] in G. rewrite !nth_error_map in G.
  rewrite (event_rate_nth' (t_nev pl_table) (t_ev pl_table) 4 1 1 eq_refl eq_refl), (event_rate_nth' (t_nev pl_table) (t_ev pl_table) 6 1 0 eq_refl eq_refl) in G.
  cbn [Z.ltb Z.compare andb Z.add Pos.add option_map] in G. injection G as G. change (1 + 1)%Z with 2%Z in G. lra.
Qed.
Print Assumptions C89_missing_marker_refuted.

(** With several special rows, add_special=False and show_bin_labels=True, the labels are not those of the bars. *)
Theorem C89_labels_refuted : exists e x o1 t nb a, answers_fit e /\ prebin_sorted e /\ ~ In YNaN (d_y x) /\ ~ In XNaN (flat_codes (e_special e)) /\ sp_disjoint (e_special e) /\
  fit e x (new None None) = (o1, Ok tt) /\ o_table o1 = Some t /\
  forall key U d, exists f, plot1 (binary_ptable key U t) (Some (pt_text (binary_ptable key U t) d)) a = Ok (FBin f) /\
    ~ labels_show (binary_ptable key U t) nb a (pt_text (binary_ptable key U t) d) f /\
    exists l, bf_ticks f = Some l /\ nth_error l nb = Some (key 1%Z) /\ nth_error (shown (binary_ptable key U t) nb a) nb = Some 6 /\ nth_error (pt_text (binary_ptable key U t) d) 6 = Some "Missing"%string.
Proof.
  destruct pl_hyps as (A & B & C & D & E). destruct pl_fit as (o1 & F & T).
  exists pl_env, pl_d, o1, pl_table, 4, (pl_a "woe" true). do 5 (split; [assumption|]). split; [exact F|]. split; [exact T|]. intros key U d.
  destruct (pl_accepted key U "woe" true ltac:(cbn; tauto)) as [HA HN].
  destruct (C89_bars _ 4 _ _ (pl_well_formed key U) (pl_text key U d) HA HN) as (f & Ef & _). exists f. split; [exact Ef|].
  rewrite (C89_labels _ 4 _ _ f (pl_well_formed key U) (pl_text key U d) HA Ef). split; [intros [G|[G|G]]; discriminate G|].
  pose proof (plot1_cases _ 4 _ (pl_a "woe" true) (pl_well_formed key U) (pl_text key U d) ltac:(tauto)) as P. rewrite Ef in P. destruct P as (_ & _ & P).
  rewrite (plot_bins_eq _ 4 _ _ (pl_well_formed key U) (pl_text key U d)) in P. injection P as <-. cbn [bf_ticks].
  eexists. split; [reflexivity|]. vm_compute. auto.
Qed.
Print Assumptions C89_labels_refuted.

(** The hypotheses of the theorems above are met by the same object, with a figure of each style. *)
Example C89_hyps_met : forall key U, well_formed (binary_ptable key U pl_table) 4 /\
  accepted (binary_ptable key U pl_table) (mkPA "woe" true "bin" true true true true true true) /\
  accepted (binary_ptable key U pl_table) (mkPA "iv" true "actual" true true true true true false) /\
  actual_request (binary_ptable key U pl_table) (mkPA "iv" true "actual" true true true true true false) /\
  4 = S (List.length (pt_splits (binary_ptable key U pl_table))) /\ pt_range (binary_ptable key U pl_table) = Some (1, 10)%Z /\
  last_build [PBuild None 2; PPlot (pl_a "woe" true); PBuild (Some ValueError) 3] (Some 2) /\
  In (XNum 7%Z, Y1, 1%Z) (rows (d_x pl_d) (d_y pl_d) (d_w pl_d)) /\ ~ In (XNum 7%Z) (flat_codes (e_special pl_env)).
Proof.
  intros key U. split; [apply pl_well_formed|].
  split. { do 4 (split; [reflexivity|]). split; [cbn; tauto|]. split; [intros _; cbn; tauto|]. intros [_ G]. discriminate G. }
  split. { do 4 (split; [reflexivity|]). split; [cbn; tauto|]. split; [intros _; cbn; tauto|]. intros _. repeat split; discriminate. }
  split; [split; [discriminate|reflexivity]|]. split; [vm_compute; reflexivity|]. split; [vm_compute; reflexivity|].
  split. { exists [], [PPlot (pl_a "woe" true); PBuild (Some ValueError) 3]. split; [reflexivity|]. intros d [G|[G|[]]]; discriminate G. }
  split; [vm_compute; tauto|]. vm_compute. intuition discriminate.
Qed.
