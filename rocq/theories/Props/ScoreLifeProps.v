(** C74: Scorecard as an object. Histories of fit / predict / score / table / set_params calls in any order, on any data, with arbitrary (possibly
    failing) binning process, estimator and rounding solver. *)
From Coq Require Import List ZArith Bool Reals Lia Lra.
From Verif Require Import Model.Arr Model.Core Model.Cat Model.Process Model.Scorecard Model.ScoreLife Spec.CoreSpec Spec.CatSpec Spec.ScoreSpec Spec.ScoreLifeSpec
  Proofs.ScoreP Proofs.ScoreFinal Proofs.ScoreLifeP Proofs.ScoreLifeQ.
Import ListNotations.
Open Scope Z_scope.

(** ** fitted or not *)
(** predict, score and table raise NotFittedError exactly until a fit has returned normally ... *)
Theorem C74_not_fitted (w : world) (o0 : params w) h c : is_read c -> ~ some_fit_succeeded (new_object o0) h ->
  snd (step (run (new_object o0) h) c) = Err NotFitted.
Proof.
  intros Hc H. assert (F : st_fitted (run (new_object o0) h) = false).
  { destruct (st_fitted (run (new_object o0) h)) eqn:E; [|reflexivity]. apply run_fitted in E. destruct E as [E|E]; [discriminate E|contradiction]. }
  destruct c as [|k X|X| |]; try destruct Hc; cbn [step snd]; unfold sc_predict, sc_score, sc_table, process_input; rewrite F; reflexivity.
Qed.
Print Assumptions C74_not_fitted.
(** ... and the table is there from then on, whatever fits fail later. *)
Theorem C74_table_after_fit (w : world) (o0 : params w) h : some_fit_succeeded (new_object o0) h ->
  exists d, snd (step (run (new_object o0) h) CTable) = Ok (ATable d).
Proof.
  intros H. assert (F : st_fitted (run (new_object o0) h) = true) by (apply run_fitted; now right).
  pose proof (run_df h (new_object o0) (fun x => ltac:(discriminate x)) F) as D. cbn [step snd]. unfold sc_table. rewrite F. destruct (st_df _) as [d|]; [|contradiction]. cbn. eauto.
Qed.
Print Assumptions C74_table_after_fit.
(** Only fit changes what predict, score and table answer: reads and set_params do not. *)
Theorem C74_reads (w : world) (o0 : params w) h r c : (forall x, In x r -> ~ is_fit x) -> is_read c ->
  snd (step (run (new_object o0) (h ++ r)) c) = snd (step (run (new_object o0) h) c).
Proof. intros Hr Hc. rewrite run_app. now apply read_run. Qed.
Print Assumptions C74_reads.

(** ** refitting forgets the history *)
(** Two objects with any past, given the same parameters and the same fit: the same outcome, and after a success every later call answers the
    same - if the parameters have intercept_based=True, or neither object ever had it. *)
Theorem C74_fit_forgets_history (w : world) (o1 o2 : params w) h1 h2 o X y sw ms mm :
  let c := CFit X y sw ms mm in
  snd (step (object o1 h1 o) c) = snd (step (object o2 h2 o) c) /\
  (so_ib o = true \/ (always (fun o => so_ib o = false) o1 h1 /\ always (fun o => so_ib o = false) o2 h2) ->
   snd (step (object o1 h1 o) c) = Ok AUnit ->
   forall h, outcomes (fst (step (object o1 h1 o) c)) h = outcomes (fst (step (object o2 h2 o) c)) h).
Proof.
  intros c. subst c. rewrite !object_state. cbn [step].
  destruct (fit_same (with_params o (run (new_object o1) h1)) (with_params o (run (new_object o2) h2)) X y sw ms mm eq_refl) as [A B].
  set (s1 := with_params o (run (new_object o1) h1)) in *. set (s2 := with_params o (run (new_object o2) h2)) in *.
  destruct (sc_fit s1 X y sw ms mm) as [s1' r1] eqn:E1, (sc_fit s2 X y sw ms mm) as [s2' r2] eqn:E2. cbn [fst snd] in *. subst r2. split; [reflexivity|].
  intros I E h. destruct r1 as [u|e]; [|discriminate E]. rewrite (B ltac:(destruct I as [I|[I1 I2]]; [left; exact I|right; unfold s1, s2; cbn; now rewrite !run_intercept]) u eq_refl). reflexivity.
Qed.
Print Assumptions C74_fit_forgets_history.

(** ** what a fitted scorecard answers *)
(** The score of every record is intercept_ plus the points shown in the table for the rows of its values, in the order of the records. *)
Theorem C74_score_is_points (w : world) (o0 : params w) h f0 y sw ms mm : rounding_ok w ->
  let s := run (new_object o0) h in let o := st_params s in
  let s' := fst (step s (CFit (DFrame f0) y sw ms mm)) in
  snd (step s (CFit (DFrame f0) y sw ms mm)) = Ok AUnit ->
  exists g0 vars df, pick_frame f0 (so_names o) = Ok g0 /\ w_binning w (so_bp o) g0 y sw = Ok vars /\
  snd (step s' CTable) = Ok (ATable df) /\ map fst df = map fst vars /\
  (NoDup (map fst vars) -> incl (map fst vars) (so_names o) -> Forall svar_ok (map snd vars) ->
   forall f ks, (forall n, In n (so_names o) -> dget (fr_cols f) n <> None) ->
     (forall i, (i < fr_rows f)%nat -> sample_rows (map snd vars) (record_of f (map fst vars) i) (ks i)) ->
     exists l, snd (step s' (CScore (DFrame f))) = Ok (AScore l) /\ length l = fr_rows f /\
       forall i, (i < fr_rows f)%nat -> Score_of (map snd df, st_intercept s') (ks i) (nth i l 0%R)).
Proof.
  intros Hm s o s' E. subst s'. cbn [step] in *. destruct (sc_fit s (DFrame f0) y sw ms mm) as [s1 r] eqn:E1. cbn [fst snd] in *. destruct r as [[]|e]; [|discriminate E].
  pose proof (score_after s f0 y sw ms mm Hm) as F. rewrite E1 in F. specialize (F eq_refl). cbv zeta in F. cbn [fst] in F. destruct F as (g0 & vars & df & A & B & C & D & F).
  exists g0, vars, df. do 2 (split; [assumption|]). split; [now rewrite C|]. split; [exact D|]. intros Nd I Vo f ks Hc Hr. destruct (F Nd I Vo f ks Hc Hr) as (l & L1 & L2 & L3).
  exists l. split; [now rewrite L1|]. split; [exact L2|exact L3].
Qed.
Print Assumptions C74_score_is_points.
(** predict / predict_proba / decision_function apply the fitted estimator to the records transformed by the fitted bins with the metric_special and
    metric_missing of that fit; on the training data that is the very matrix the estimator was trained on. *)
Theorem C74_predict_as_trained (w : world) (o0 : params w) h f0 y sw ms mm :
  let s := run (new_object o0) h in let o := st_params s in
  let s' := fst (step s (CFit (DFrame f0) y sw ms mm)) in
  snd (step s (CFit (DFrame f0) y sw ms mm)) = Ok AUnit ->
  exists g0 vars M est, pick_frame f0 (so_names o) = Ok g0 /\ w_binning w (so_bp o) g0 y sw = Ok vars /\ transform_values vars ms mm g0 = Ok M /\
    w_estimator w (so_est o) M y sw = Ok est /\
    (forall k f g, pick_frame f (so_names o) = Ok g ->
       snd (step s' (CPredict k (DFrame f))) = rbind (transform_values vars ms mm g) (fun T => rbind (w_answer w k est T) (fun a => Ok (APred a)))) /\
    (forall k, snd (step s' (CPredict k (DFrame f0))) = rbind (w_answer w k est M) (fun a => Ok (APred a))).
Proof.
  intros s o s' E. subst s'. cbn [step] in *. destruct (sc_fit s (DFrame f0) y sw ms mm) as [s1 r] eqn:E1. cbn [fst snd] in *. destruct r as [[]|e]; [|discriminate E].
  pose proof (predict_after s f0 y sw ms mm) as F. rewrite E1 in F. specialize (F eq_refl). cbv zeta in F. cbn [fst] in F. destruct F as (g0 & vars & M & est & A & B & C & D & F & G).
  exists g0, vars, M, est. do 4 (split; [assumption|]). split.
  - intros k f g Hg. rewrite (F k f g Hg). destruct (transform_values vars ms mm g); reflexivity.
  - intros k. now rewrite (G k).
Qed.
Print Assumptions C74_predict_as_trained.

(** ** columns *)
(** Only the columns named in the binning process matter: not their order in the frame, not other columns. *)
Theorem C74_columns (w : world) (o0 : params w) h N c c' : always (fun o => incl (so_names o) N) o0 h -> same_call N c c' ->
  step (run (new_object o0) h) c = step (run (new_object o0) h) c'.
Proof.
  intros [H0 Hh] Hc. apply (same_step N); [|exact Hc]. apply names_run; [|exact Hh]. split; [exact H0|exact I].
Qed.
Print Assumptions C74_columns.
(** A frame without one of the fitted columns - even of a variable that was not selected - is refused by predict and score, and by fit. *)
Theorem C74_missing_column (w : world) (o0 : params w) h f0 y sw ms mm f n :
  let s := run (new_object o0) h in let s' := fst (step s (CFit (DFrame f0) y sw ms mm)) in
  snd (step s (CFit (DFrame f0) y sw ms mm)) = Ok AUnit -> In n (so_names (st_params s)) -> dget (fr_cols f) n = None ->
  (forall k, snd (step s' (CPredict k (DFrame f))) = Err OtherError) /\ snd (step s' (CScore (DFrame f))) = Err OtherError /\
  (forall y sw ms mm, exists e, snd (step s' (CFit (DFrame f) y sw ms mm)) = Err e).
Proof.
  intros s s' E Hn Hd. subst s'. cbn [step] in *. pose proof (fit_params s (DFrame f0) y sw ms mm) as Q.
  destruct (sc_fit s (DFrame f0) y sw ms mm) as [s1 r] eqn:E1. cbn [fst snd] in *. destruct r as [[]|e]; [|discriminate E].
  pose proof (fit_ok s (DFrame f0) y sw ms mm tt) as F. rewrite E1 in F. destruct (F eq_refl) as (f' & Ef & _ & _ & g & vars & M & est & coefs & ic & vc & _ & _ & _ & _ & _ & _ & _ & R). cbv zeta in R. cbn [fst] in R.
  assert (P1 : st_fitted s1 = true) by now rewrite R. assert (P2 : st_process s1 = Some (PFit (so_names (st_params s)) vars)) by now rewrite R.
  split; [|split].
  - intros k. destruct (missing_read s1 f k P1 _ n P2 Hn Hd) as [A _]. now rewrite A.
  - destruct (missing_read s1 f false P1 _ n P2 Hn Hd) as [_ A]. now rewrite A.
  - intros y' sw' ms' mm'. rewrite <- Q in Hn. destruct (fit_missing s1 f y' sw' ms' mm' n Hn Hd) as [e He]. destruct (sc_fit s1 (DFrame f) y' sw' ms' mm') as [s2 r2]. cbn in He |- *. rewrite He. cbn. eauto.
Qed.
Print Assumptions C74_missing_column.

(** ** failing fits *)
(** A fit that raises leaves the table, the intercept and the fitted state alone ... *)
Theorem C74_failed_fit_keeps_table (w : world) (o0 : params w) h X y sw ms mm e :
  let s := run (new_object o0) h in let s' := fst (step s (CFit X y sw ms mm)) in
  snd (step s (CFit X y sw ms mm)) = Err e ->
  snd (step s' CTable) = snd (step s CTable) /\ st_intercept s' = st_intercept s.
Proof.
  intros s s' E. subst s'. cbn [step] in *. pose proof (fit_err s X y sw ms mm) as F. destruct (sc_fit s X y sw ms mm) as [s1 r]. cbn [fst snd] in *. destruct r as [[]|e']; [discriminate E|].
  destruct (F e' eq_refl) as (A & B & C). split; [|exact C]. unfold sc_table. now rewrite A, B.
Qed.
Print Assumptions C74_failed_fit_keeps_table.
(** ... and one rejected by the checks, called with the same metric_special and metric_missing as the fit before it, changes no answer at all. *)
Theorem C74_rejected_fit_harmless (w : world) (o0 : params w) h X1 y1 sw1 ms mm r X y sw c :
  (forall x, In x r -> ~ is_fit x) ->
  let s := run (new_object o0) (h ++ [CFit X1 y1 sw1 ms mm] ++ r) in
  rejected (st_params s) X y sw -> is_read c ->
  snd (step (fst (step s (CFit X y sw ms mm))) c) = snd (step s c) /\ exists e, snd (step s (CFit X y sw ms mm)) = Err e.
Proof.
  intros Hr s H Hc. cbn [step]. assert (M : st_ms s = Some ms /\ st_mm s = Some mm).
  { unfold s. rewrite run_app. cbn [app run step]. destruct (sc_fit (run (new_object o0) h) X1 y1 sw1 ms mm) as [s1 r1] eqn:E. cbn [fst].
    pose proof (fit_metrics (run (new_object o0) h) X1 y1 sw1 ms mm) as F. rewrite E in F. cbn in F. clear - F Hr. revert s1 F. induction r as [|x r IH]; intros s1 F; cbn [run]; [exact F|].
    apply IH; [intros z Hz; apply Hr; now right|]. destruct x; cbn [step fst]; try exact F. exfalso. apply (Hr _ (or_introl eq_refl)). exact I. }
  destruct M as [M1 M2]. pose proof (reads_rejected s X y sw ms mm c M1 M2 H Hc) as A. destruct (rejected_fit s X y sw ms mm H) as [[e B] _].
  destruct (sc_fit s X y sw ms mm) as [s1 r1]. cbn [fst snd] in *. split; [exact A|]. rewrite B. cbn. eauto.
Qed.
Print Assumptions C74_rejected_fit_harmless.
(** The checks: rounding needs a scaling; X must be a DataFrame; the target binary or continuous; pdo_odds a binary target and positive numbers;
    min_max ordered bounds (integers with rounding); no sample weights with a continuous target. *)
Theorem C74_parameter_checks (w : world) (s : state w) X y sw ms mm : let o := st_params s in
  let e := snd (step s (CFit X y sw ms mm)) in let t := w_target w y in
  (so_scaling o = NoScaling -> so_round o = true -> e = Err ValueError) /\
  ((so_scaling o <> NoScaling \/ so_round o = false) -> X = DOther -> e = Err TypeError) /\
  (e = Ok AUnit -> (exists f, X = DFrame f) /\ t <> TgOther /\ (t = TgContinuous -> sw = None) /\
     match so_scaling o with
     | NoScaling => so_round o = false
     | PdoOdds pdo odds pts => t = TgBinary /\ (0 < pdo /\ 0 < odds /\ 0 < pts)%R
     | MinMax a b => (a <= b)%R /\ (so_round o = true -> exists m n, a = IZR m /\ b = IZR n)
     end).
Proof.
  intros o e t. subst e. cbn [step]. split; [|split].
  - intros A B. unfold sc_fit, check_params. fold o. rewrite A, B. reflexivity.
  - intros A ->. unfold sc_fit, check_params. fold o. destruct A as [A|A]; [destruct (so_scaling o); [contradiction| |]|rewrite A; destruct (so_scaling o)]; reflexivity.
  - intros E. assert (E' : snd (sc_fit s X y sw ms mm) = Ok tt) by (destruct (sc_fit s X y sw ms mm) as [s1 [[]|?]]; [reflexivity|discriminate E]).
    destruct (fit_ok s X y sw ms mm tt E') as (f & -> & A & B & _). split; [eauto|].
    assert (C : ~ rejected o (DFrame f) y sw). { intros C. destruct (rejected_fit s (DFrame f) y sw ms mm C) as [[e' C'] _]. congruence. }
    split; [intros C1; apply C; right; right; left; exact C1|]. split; [intros C1; destruct sw as [v|]; [|reflexivity]; exfalso; apply C; do 4 right; split; [discriminate|exact C1]|].
    fold o in A, B. fold t in B. unfold check_params in A. unfold check_scaling in B. destruct (so_scaling o) as [|pdo odds pts|a b].
    + destruct (so_round o); [discriminate|reflexivity].
    + destruct t; try discriminate. split; [reflexivity|]. unfold pos in B. destruct (Rlt_dec 0 pdo), (Rlt_dec 0 odds), (Rlt_dec 0 pts); try discriminate. auto.
    + destruct (Rlt_dec b a) as [|L]; [discriminate|]. split; [lra|]. intros R. rewrite R in B. cbn in B. unfold is_integer in B.
      destruct (Req_EM_T (IZR (Int_part a)) a) as [Ha|]; [|discriminate]. destruct (Req_EM_T (IZR (Int_part b)) b) as [Hb|]; [|discriminate]. exists (Int_part a), (Int_part b). auto.
Qed.
Print Assumptions C74_parameter_checks.

(** ** what is not so *)
(** A small world: one variable (name 1) binned at the number y; binning fails for y < 0; the estimator fails for y = 7; predict answers the matrix it is given. *)
Definition ex_var (y : Z) : svar := mkV (Num [y]) SpNone [-1; 1; 0; 2]%R 0%R 0%R.
Definition ex_w : world := mkW unit Z unit unit (list R * R) (list (list R)) (fun _ => TgBinary)
  (fun _ f y _ => if y <? 0 then Err ValueError else Ok [(1, ex_var y)]) (fun _ => ([1%R], 0%R))
  (fun _ M y _ => if y =? 7 then Err ValueError else Ok ([1%R], 0%R)) (fun e => Some e) (fun _ _ M => Ok M) (fun _ => None).
Definition ex_o (ib : bool) : params ex_w := @mkP ex_w [1] tt tt NoScaling ib false false.
Definition ex_f : frame := mkF 2 [(2, [XNum 0; XNum 0]); (1, [XNum 5; XNaN])].
Definition ex_fit (y : Z) (X : data) (mm : marg R) : call ex_w := @CFit ex_w X y None Empirical mm.
Definition ex_s : state ex_w := run (new_object (ex_o false)) [ex_fit 3 (DFrame ex_f) Empirical].

(** A rejected fit (X is not a DataFrame) with another metric_missing changes what predict computes. *)
Theorem C74_rejected_fit_changes_predict_refuted :
  snd (step ex_s (CPredict false (DFrame ex_f))) = Ok (@APred ex_w [[1; 2]%R]) /\
  snd (step ex_s (ex_fit 3 DOther (Const true 9%R))) = Err TypeError /\
  snd (step (fst (step ex_s (ex_fit 3 DOther (Const true 9%R)))) (CPredict false (DFrame ex_f))) = Ok (@APred ex_w [[1; 9]%R]).
Proof. split; [reflexivity|]. split; reflexivity. Qed.
Print Assumptions C74_rejected_fit_changes_predict_refuted.
(** After a fit whose binning failed predict and score raise NotFittedError although the table is still there. *)
Theorem C74_failed_binning_unfits_refuted :
  let s := fst (step ex_s (ex_fit (-1) (DFrame ex_f) Empirical)) in
  snd (step ex_s (ex_fit (-1) (DFrame ex_f) Empirical)) = Err ValueError /\
  snd (step s (CPredict false (DFrame ex_f))) = Err NotFitted /\ snd (step s (CScore (DFrame ex_f))) = Err NotFitted /\
  exists d, snd (step s CTable) = Ok (ATable d).
Proof. split; [reflexivity|]. split; [reflexivity|]. split; [reflexivity|]. eexists. reflexivity. Qed.
Print Assumptions C74_failed_binning_unfits_refuted.
(** After a fit whose estimator failed score uses the new bins with the old points: the score of the same record has changed although the table has not. *)
Theorem C74_failed_estimator_mixes_score_refuted :
  let s := fst (step ex_s (ex_fit 7 (DFrame ex_f) Empirical)) in
  snd (step ex_s (ex_fit 7 (DFrame ex_f) Empirical)) = Err ValueError /\
  snd (step s CTable) = snd (step ex_s CTable) /\
  exists a b c, snd (step ex_s (CScore (DFrame ex_f))) = Ok (AScore [a; c]) /\ snd (step s (CScore (DFrame ex_f))) = Ok (AScore [b; c]) /\ a = 1%R /\ b = (-1)%R.
Proof.
  split; [reflexivity|]. split; [reflexivity|]. do 3 eexists. split; [cbv -[Rplus Rmult IZR]; reflexivity|]. split; [cbv -[Rplus Rmult IZR]; reflexivity|]. split; lra.
Qed.
Print Assumptions C74_failed_estimator_mixes_score_refuted.
(** Without the condition on intercept_based the history is not forgotten: refitting with intercept_based=False after a fit with True keeps the old intercept. *)
Theorem C74_stale_intercept_refuted :
  let c := ex_fit 3 (DFrame ex_f) Empirical in
  let s := fst (step (object (ex_o true) [c] (ex_o false)) c) in
  exists a b, snd (step (fst (step (object (ex_o false) [] (ex_o false)) c)) (CScore (DFrame ex_f))) = Ok (AScore a) /\
    snd (step s (CScore (DFrame ex_f))) = Ok (AScore b) /\ (nth 0 b 0 < nth 0 a 0)%R.
Proof.
  cbv zeta. do 2 eexists. split; [cbv -[Rplus Rmult Rminus IZR Rmin]; reflexivity|]. split; [cbv -[Rplus Rmult Rminus IZR Rmin]; reflexivity|]. cbv [nth].
  pose proof (Rmin_r (1 * 1) (Rmin (0 * 1) (Rmin (2 * 1) (-1 * 1)))). pose proof (Rmin_r (0 * 1) (Rmin (2 * 1) (-1 * 1))). pose proof (Rmin_r (2 * 1) (-1 * 1)). lra.
Qed.
Print Assumptions C74_stale_intercept_refuted.

(** The hypotheses above are met: a fit on a frame with an extra column, a missing value and two records. *)
Example C74_hyps_met : snd (step (new_object (ex_o false)) (ex_fit 3 (DFrame ex_f) Empirical)) = Ok AUnit /\ some_fit_succeeded (new_object (ex_o false)) [ex_fit 3 (DFrame ex_f) Empirical] /\
  svar_ok (ex_var 3) /\
  sample_rows [ex_var 3] (record_of ex_f [1] 0) [1%nat] /\ same_columns [1] ex_f (mkF 2 [(1, [XNum 5; XNaN])]) /\
  rejected (ex_o false) DOther 3 None /\ rounding_ok ex_w.
Proof.
  split; [reflexivity|]. split; [exists (DFrame ex_f), 3, None, Empirical, Empirical; left; reflexivity|]. split; [split; [exact I|]; split; [reflexivity|]; cbn; repeat constructor|]. split.
  { constructor; [|constructor]. cbn. vm_compute. intuition congruence. }
  split; [split; [reflexivity|]; intros n [<-|[]]; reflexivity|]. split; [right; left; reflexivity|]. intros t p H. discriminate H.
Qed.
