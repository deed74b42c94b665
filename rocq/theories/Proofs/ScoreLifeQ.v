(** C74: what a Scorecard answers after a successful fit. *)
From Coq Require Import List ZArith Bool Reals Lia Lra.
From Verif Require Import Model.Arr Model.Core Model.Cat Model.Process Model.Scorecard Model.ScoreLife Spec.CoreSpec Spec.CatSpec Spec.ScoreSpec Spec.ScoreLifeSpec
  Proofs.ScoreP Proofs.ScoreFinal Proofs.ScoreLifeP.
Import ListNotations.

Lemma pick_get c names : forall d, pick c names = Ok d -> forall n, In n names -> dget d n = dget c n.
Proof.
  induction names as [|m r IH]; intros d H n Hn; [destruct Hn|]. cbn in H. destruct (dget c m) as [l|] eqn:E; [|discriminate]. destruct (pick c r) as [d'|e] eqn:E'; [|discriminate].
  cbn in H. injection H as <-. cbn [dget fst snd]. destruct (Z.eqb_spec m n) as [->|Hne].
  - now rewrite E.
  - destruct Hn as [->|Hn]; [contradiction|]. exact (IH d' eq_refl n Hn).
Qed.
Lemma pick_ok c names : (exists d, pick c names = Ok d) <-> (forall n, In n names -> dget c n <> None).
Proof.
  induction names as [|m r IH]; cbn; [split; [intros _ n []|eauto]|]. split.
  - intros [d H] n [->|Hn]; destruct (dget c _) as [l|] eqn:E; try discriminate. apply IH; [|exact Hn]. destruct (pick c r); [eauto|discriminate].
  - intros H. destruct (dget c m) as [l|] eqn:E; [|exfalso; now apply (H m); [left|]]. destruct (proj2 IH) as [d Hd]; [intros n Hn; apply H; now right|]. rewrite Hd. cbn. eauto.
Qed.
Lemma pick_err c names e : pick c names = Err e -> e = OtherError /\ exists n, In n names /\ dget c n = None.
Proof.
  induction names as [|m r IH]; cbn; [discriminate|]. destruct (dget c m) as [l|] eqn:E.
  - destruct (pick c r) as [d|e']; cbn; [discriminate|]. intros H. injection H as <-. destruct (IH eq_refl) as (A & n & Hn & Hd). split; [exact A|]. exists n. auto.
  - intros H. injection H as <-. split; [reflexivity|]. exists m. auto.
Qed.
Lemma all_ok_map {A B} (f : A -> res B) (g : A -> B) l : (forall a, In a l -> f a = Ok (g a)) -> all_ok (map f l) = Ok (map g l).
Proof. induction l as [|a l IH]; intros H; cbn; [reflexivity|]. rewrite (H a) by now left. rewrite IH by (intros b Hb; apply H; now right). reflexivity. Qed.
Lemma all_ok_seq {B} (f : nat -> res B) (d : B) (Q : nat -> B -> Prop) n : forall m, (forall i, (m <= i < m + n)%nat -> exists x, f i = Ok x /\ Q i x) ->
  exists l, all_ok (map f (seq m n)) = Ok l /\ length l = n /\ forall i, (i < n)%nat -> Q (m + i)%nat (nth i l d).
Proof.
  induction n as [|n IH]; intros m H; cbn; [exists []; repeat split; intros i Hi; lia|].
  destruct (H m) as (x & E & Hx); [lia|]. destruct (IH (S m)) as (l & El & Ll & Hl); [intros i Hi; apply H; lia|]. rewrite E, El. cbn. exists (x :: l). split; [reflexivity|]. split; [cbn; lia|].
  intros [|i] Hi; cbn; [now rewrite Nat.add_0_r|]. rewrite Nat.add_succ_r. apply (Hl i). lia.
Qed.

(** only the coefficients differ *)
Definition same_var (v v' : svar) := sv_bins v' = sv_bins v /\ sv_sp v' = sv_sp v /\ sv_metric v' = sv_metric v /\ sv_unknown v' = sv_unknown v.
Lemma with_coefs_same vars : forall coefs vc, with_coefs vars coefs = Ok vc -> map fst vc = map fst vars /\ Forall2 same_var (map snd vars) (map snd vc).
Proof.
  induction vars as [|[n v] vars IH]; intros coefs vc H; cbn in H; [injection H as <-; split; constructor|]. destruct coefs as [|c coefs]; [discriminate|].
  destruct (with_coefs vars coefs) as [l|e] eqn:E; [|discriminate]. cbn in H. injection H as <-. destruct (IH coefs l E) as [A B]. split; [cbn; now rewrite A|]. cbn. constructor; [repeat split|exact B].
Qed.
Lemma with_coefs_nth vars : forall coefs vc, with_coefs vars coefs = Ok vc -> (length vars <= length coefs)%nat /\ forall i v, nth_error (map snd vc) i = Some v -> nth_error coefs i = Some (sv_coef v).
Proof.
  induction vars as [|[n v] vars IH]; intros coefs vc H; cbn in H; [injection H as <-; split; [cbn; lia|]; intros [|i] v' Hv; discriminate|]. destruct coefs as [|c coefs]; [discriminate|].
  destruct (with_coefs vars coefs) as [l|e] eqn:E; [|discriminate]. cbn in H. injection H as <-. destruct (IH coefs l E) as [A B]. split; [cbn; lia|].
  intros [|i] v'; cbn; [intros Hv; injection Hv as <-; reflexivity|apply B].
Qed.
Lemma same_index v v' x : same_var v v' -> sv_index v' x = sv_index v x.
Proof. intros (A & B & _). unfold sv_index. now rewrite A, B. Qed.
Lemma same_score_sum vars vars' : Forall2 same_var vars vars' -> forall t xs, score_sum vars' t xs = score_sum vars t xs.
Proof.
  induction 1 as [|v v' r r' H1 H2 IH]; intros t xs; cbn; [reflexivity|]. destruct t as [|p t]; [reflexivity|]. destruct xs as [|x xs]; [reflexivity|]. rewrite (same_index v v' x H1). now rewrite IH.
Qed.
Lemma same_vars_ok vars vars' : Forall2 same_var vars vars' -> Forall svar_ok vars -> Forall svar_ok vars'.
Proof.
  induction 1 as [|v v' r r' (A & B & C & D) H2 IH]; intros H; constructor; inversion H as [|? ? H3 H4]; subst; [|now apply IH].
  unfold svar_ok, n_bins_of in *. now rewrite A, B, C.
Qed.
Lemma same_rows vars vars' : Forall2 same_var vars vars' -> forall xs ks, sample_rows vars xs ks -> sample_rows vars' xs ks.
Proof.
  induction 1 as [|v v' r r' (A & B & C & D) H2 IH]; intros xs ks H; inversion H; subst; constructor; [|now apply IH]. unfold table_row in *. now rewrite A, B.
Qed.
Lemma fit_scorecard_length sc rev ib rnd mip i0 ms mm ic vars : (forall t p, mip t = Some p -> exists minb maxb, mip_feasible t p minb maxb) ->
  length (fst (fit_scorecard sc rev ib rnd mip i0 ms mm ic vars)) = length vars.
Proof.
  intros Hm. assert (S : forall t, length (scale sc rev ic t) = length t) by (intros t; unfold scale, mapt; destruct sc; [reflexivity| |]; apply map_length).
  assert (G : forall t, length (if rnd then match sc with MinMax _ _ => match mip t with Some p => map (map IZR) p | None => mapt rintR t end | _ => mapt rintR t end else t) = length t).
  { intros t. destruct rnd; [|reflexivity]. destruct sc; try apply map_length. destruct (mip t) as [p|] eqn:E; [|apply map_length]. rewrite map_length. destruct (Hm t p E) as (? & ? & Hf). apply Hf. }
  unfold fit_scorecard, finish. destruct ib; cbn [fst snd intercept_based].
  - specialize (G (fst (intercept_based (scale sc rev ic (map (raw_points ms mm) vars))))). destruct rnd; cbn [fst]; [etransitivity; [exact G|]|]; unfold intercept_based; cbn [fst]; now rewrite map_length, S, map_length.
  - specialize (G (scale sc rev ic (map (raw_points ms mm) vars))). destruct rnd; cbn [fst]; [etransitivity; [exact G|]|]; now rewrite S, map_length.
Qed.
Lemma points_combine names : NoDup names -> forall (pts : list (list R)), length pts = length names -> map (points_of (combine names pts)) names = pts.
Proof.
  induction 1 as [|n r Hn Hr IH]; intros [|p pts] L; try discriminate L; [reflexivity|]. cbn in L. injection L as L. cbn [combine map]. f_equal.
  - unfold points_of. cbn [dget fst snd]. now rewrite Z.eqb_refl.
  - rewrite <- (IH pts L) at 2. apply map_ext_in. intros m Hm. unfold points_of. cbn [dget fst snd]. destruct (Z.eqb_spec n m) as [->|_]; [contradiction|reflexivity].
Qed.
Lemma snd_combine {A B} (l : list A) : forall (m : list B), length m = length l -> map snd (combine l m) = m.
Proof. induction l as [|a l IH]; intros [|b m] L; try discriminate L; [reflexivity|]. cbn. f_equal. apply IH. now injection L. Qed.
Lemma fst_combine {A B} (l : list A) : forall (m : list B), length m = length l -> map fst (combine l m) = l.
Proof. induction l as [|a l IH]; intros [|b m] L; try discriminate L; [reflexivity|]. cbn. f_equal. apply IH. now injection L. Qed.

Section W.
Context {w : world}.
Implicit Types (s : state w) (o : params w).

Lemma record_pick f g names vs i : pick_frame f names = Ok g -> incl vs names -> record_of g vs i = record_of f vs i.
Proof.
  unfold pick_frame. destruct (pick (fr_cols f) names) as [d|e] eqn:E; [|discriminate]. cbn. intros H I. injection H as <-. unfold record_of. apply map_ext_in. intros n Hn.
  unfold column. cbn. now rewrite (pick_get _ _ d E n (I n Hn)).
Qed.
Lemma pick_rows f g names : pick_frame f names = Ok g -> fr_rows g = fr_rows f.
Proof. unfold pick_frame. destruct (pick (fr_cols f) names); [|discriminate]. cbn. intros H. now injection H as <-. Qed.

Lemma score_after s f0 y sw ms mm : rounding_ok w -> snd (sc_fit s (DFrame f0) y sw ms mm) = Ok tt ->
  let s' := fst (sc_fit s (DFrame f0) y sw ms mm) in let o := st_params s in
  exists g0 vars df, pick_frame f0 (so_names o) = Ok g0 /\ w_binning w (so_bp o) g0 y sw = Ok vars /\ sc_table s' = Ok df /\ map fst df = map fst vars /\
  (NoDup (map fst vars) -> incl (map fst vars) (so_names o) -> Forall svar_ok (map snd vars) ->
   forall f ks, (forall n, In n (so_names o) -> dget (fr_cols f) n <> None) ->
     (forall i, (i < fr_rows f)%nat -> sample_rows (map snd vars) (record_of f (map fst vars) i) (ks i)) ->
     exists l, sc_score s' (DFrame f) = Ok l /\ length l = fr_rows f /\
       forall i, (i < fr_rows f)%nat -> Score_of (map snd df, st_intercept s') (ks i) (nth i l 0%R)).
Proof.
  intros Hm E s' o. destruct (fit_ok s (DFrame f0) y sw ms mm tt E) as (f & Ef & _ & _ & g & vars & M & est & coefs & ic & vc & A1 & A2 & A3 & A4 & A5 & A6 & A7 & A8). injection Ef as <-.
  fold o in A1, A2, A4, A8. cbv zeta in A8. fold s' in A8. clearbody s'. destruct (with_coefs_same vars coefs vc A6) as [N V].
  set (fs := fit_scorecard (so_scaling o) (so_rev o) (so_ib o) (so_round o) (w_mip w) (st_intercept s) ms mm ic (map snd vc)) in *.
  assert (L : length (fst fs) = length (map fst vc)) by (unfold fs; rewrite fit_scorecard_length by exact Hm; now rewrite !map_length).
  exists g, vars, (combine (map fst vc) (fst fs)). do 2 (split; [assumption|]). subst s'. split; [reflexivity|]. split; [rewrite fst_combine by exact L; exact N|].
  intros Nd I Vo f ks Hc Hr. destruct (proj2 (pick_ok (fr_cols f) (so_names o)) Hc) as [d Hd].
  unfold sc_score, process_input. cbn [st_fitted st_process process_names st_df st_intercept]. unfold pick_frame at 1. rewrite Hd. cbn [rbind].
  assert (P : map (fun nv => points_of (combine (map fst vc) (fst fs)) (fst nv)) vars = fst fs).
  { rewrite <- (map_map fst (points_of (combine (map fst vc) (fst fs)))), <- N. apply points_combine; [now rewrite N|exact L]. }
  cbn [fr_rows]. rewrite P.
  assert (Hp : pick_frame f (so_names o) = Ok (mkF (fr_rows f) d)) by (unfold pick_frame; now rewrite Hd).
  apply (all_ok_seq _ 0%R (fun i x => Score_of (map snd (combine (map fst vc) (fst fs)), snd fs) (ks i) x) (fr_rows f) 0).
  intros i Hi. rewrite (record_pick f _ _ _ i Hp I). destruct (fit_score (so_scaling o) (so_rev o) (so_ib o) (so_round o) (w_mip w) (st_intercept s) ms mm ic (map snd vc)
    (record_of f (map fst vars) i) (ks i) Hm (same_vars_ok _ _ V Vo) (same_rows _ _ V _ _ (Hr i ltac:(lia)))) as (x & S1 & S2). fold fs in S1, S2. exists x. split.
  - unfold score in *. cbn [fst snd]. now rewrite (same_score_sum _ _ V) in S2.
  - rewrite (snd_combine _ _ L). now destruct fs.
Qed.

(** predict and decision_function feed the estimator with the metric it was trained with *)
Lemma predict_after s f0 y sw ms mm : snd (sc_fit s (DFrame f0) y sw ms mm) = Ok tt ->
  let s' := fst (sc_fit s (DFrame f0) y sw ms mm) in let o := st_params s in
  exists g0 vars M est, pick_frame f0 (so_names o) = Ok g0 /\ w_binning w (so_bp o) g0 y sw = Ok vars /\ transform_values vars ms mm g0 = Ok M /\ w_estimator w (so_est o) M y sw = Ok est /\
    (forall k f g, pick_frame f (so_names o) = Ok g -> sc_predict k s' (DFrame f) = rbind (transform_values vars ms mm g) (w_answer w k est)) /\
    (forall k, sc_predict k s' (DFrame f0) = w_answer w k est M).
Proof.
  intros E s' o. destruct (fit_ok s (DFrame f0) y sw ms mm tt E) as (f & Ef & _ & _ & g & vars & M & est & coefs & ic & vc & A1 & A2 & A3 & A4 & A5 & A6 & A7 & A8). injection Ef as <-.
  fold o in A1, A2, A4, A8. cbv zeta in A8. fold s' in A8. clearbody s'. exists g, vars, M, est. do 4 (split; [assumption|]).
  assert (G : forall k f g, pick_frame f (so_names o) = Ok g -> sc_predict k s' (DFrame f) = rbind (transform_values vars ms mm g) (w_answer w k est)).
  { intros k f g' Hg. subst s'. unfold sc_predict, process_input. cbn [st_fitted st_process process_names st_ms st_mm st_est]. rewrite Hg. cbn [rbind fst snd]. reflexivity. }
  split; [exact G|]. intros k. rewrite (G k f0 g A1), A3. reflexivity.
Qed.
(** a fit rejected by the parameter and target checks touches only the metrics and the target type *)
Lemma missing_read s f k : st_fitted s = true -> forall p n, st_process s = Some p -> In n (process_names p) -> dget (fr_cols f) n = None ->
  sc_predict k s (DFrame f) = Err OtherError /\ sc_score s (DFrame f) = Err OtherError.
Proof.
  intros F p n Hp Hn Hd. assert (E : process_input s (DFrame f) = Err OtherError).
  { unfold process_input. rewrite F, Hp. unfold pick_frame. destruct (pick (fr_cols f) (process_names p)) as [d|e] eqn:E.
    - exfalso. apply (proj1 (pick_ok (fr_cols f) (process_names p)) (ex_intro _ d E) n Hn Hd).
    - destruct (pick_err _ _ _ E) as [-> _]. reflexivity. }
  unfold sc_predict, sc_score. rewrite E. auto.
Qed.
Lemma fit_missing s f y sw ms mm n : In n (so_names (st_params s)) -> dget (fr_cols f) n = None -> exists e, snd (sc_fit s (DFrame f) y sw ms mm) = Err e.
Proof.
  intros Hn Hd. destruct (snd (sc_fit s (DFrame f) y sw ms mm)) as [u|e] eqn:E; [|eauto]. destruct (fit_ok s _ y sw ms mm u E) as (f' & Ef & _ & _ & g & vars & M & est & coefs & ic & vc & A1 & _). injection Ef as <-.
  exfalso. unfold pick_frame in A1. destruct (pick (fr_cols f) (so_names (st_params s))) as [d|e] eqn:Ep; [|discriminate]. apply (proj1 (pick_ok _ _) (ex_intro _ d Ep) n Hn Hd).
Qed.
End W.

Section Rej.
Context {w : world}.
Lemma rejected_fit (s : state w) X y sw ms mm : rejected (st_params s) X y sw -> (exists e, snd (sc_fit s X y sw ms mm) = Err e) /\
  (fst (sc_fit s X y sw ms mm) = with_metrics ms mm s \/ exists t, fst (sc_fit s X y sw ms mm) = with_target t (with_metrics ms mm s)).
Proof.
  intros H. unfold sc_fit. destruct (check_params (st_params s)) as [[]|e] eqn:E1; [|cbn; eauto]. destruct X as [f|]; [|cbn; eauto]. cbv zeta.
  destruct H as [H|[H|[H|[H|[H H']]]]]; try congruence.
  - rewrite H. cbn. eauto.
  - destruct (w_target w y) eqn:Et; [| |cbn; eauto]; (destruct (check_scaling (st_params s) _) as [[]|e]; [congruence|cbn; eauto]).
  - rewrite H'. destruct (check_scaling (st_params s) TgContinuous) as [[]|e]; [|cbn; eauto]. destruct sw; [cbn; eauto|congruence].
Qed.
Lemma reads_rejected (s : state w) X y sw ms mm c : st_ms s = Some ms -> st_mm s = Some mm -> rejected (st_params s) X y sw -> is_read c ->
  snd (step (fst (sc_fit s X y sw ms mm)) c) = snd (step s c).
Proof.
  intros A B H Hc. destruct (rejected_fit s X y sw ms mm H) as [_ [-> |[t -> ]]]; destruct c as [|k Y|Y| |]; try destruct Hc; cbn [step snd]; try reflexivity.
  all: unfold sc_predict, process_input, with_metrics, with_target; cbn; rewrite A, B; reflexivity.
Qed.
Lemma fit_metrics (s : state w) X y sw ms mm : st_ms (fst (sc_fit s X y sw ms mm)) = Some ms /\ st_mm (fst (sc_fit s X y sw ms mm)) = Some mm.
Proof.
  unfold sc_fit. repeat (cbv zeta; match goal with
  | |- context [match ?x with _ => _ end] => match type of x with
      | res _ => destruct x eqn:? | data => destruct x eqn:? | starget => destruct x eqn:? | bool => destruct x eqn:? | option _ => destruct x eqn:?
      | prod _ _ => destruct x eqn:? | list _ => destruct x eqn:? | unit => destruct x end end); cbn; auto.
Qed.
End Rej.
