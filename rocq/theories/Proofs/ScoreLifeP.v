(** C74: invariants of the Scorecard object. *)
From Coq Require Import List ZArith Bool Reals Lia Lra.
From Verif Require Import Model.Arr Model.Core Model.Process Model.Scorecard Model.ScoreLife Spec.ScoreLifeSpec.
Import ListNotations.

Section W.
Context {w : world}.
Implicit Types (s : state w) (h : list (call w)) (o : params w).

Ltac walk := repeat (cbv zeta; match goal with
  | |- context [match ?x with _ => _ end] => match type of x with
      | res _ => destruct x eqn:? | data => destruct x eqn:? | starget => destruct x eqn:? | bool => destruct x eqn:? | option _ => destruct x eqn:?
      | prod _ _ => destruct x eqn:? | list _ => destruct x eqn:? | unit => destruct x end end).

(** ** what a fit leaves alone *)
Lemma fit_params s X y sw ms mm : st_params (fst (sc_fit s X y sw ms mm)) = st_params s.
Proof. unfold sc_fit. walk; reflexivity. Qed.
Lemma fit_err s X y sw ms mm e : snd (sc_fit s X y sw ms mm) = Err e -> let s' := fst (sc_fit s X y sw ms mm) in
  st_df s' = st_df s /\ st_fitted s' = st_fitted s /\ st_intercept s' = st_intercept s.
Proof. unfold sc_fit. walk; cbn; intros H; try discriminate H; auto. Qed.
Lemma fit_ok_fitted s X y sw ms mm u : snd (sc_fit s X y sw ms mm) = Ok u -> st_fitted (fst (sc_fit s X y sw ms mm)) = true /\ st_df (fst (sc_fit s X y sw ms mm)) <> None.
Proof. unfold sc_fit. walk; cbn; intros H; try discriminate H; split; (reflexivity || discriminate). Qed.

(** ** a successful fit *)
Definition result (o : params w) (i0 : R) f y sw ms mm s' :=
  exists g vars M est coefs ic vc, pick_frame f (so_names o) = Ok g /\ w_binning w (so_bp o) g y sw = Ok vars /\ transform_values vars ms mm g = Ok M /\
    w_estimator w (so_est o) M y sw = Ok est /\ w_coef w est = Some (coefs, ic) /\ with_coefs vars coefs = Ok vc /\ vc <> [] /\
    let r := fit_scorecard (so_scaling o) (so_rev o) (so_ib o) (so_round o) (w_mip w) i0 ms mm ic (map snd vc) in
    s' = mkS o (Some ms) (Some mm) (Some (w_target w y)) (Some (PFit (so_names o) vars)) (Some est) (snd r) (Some (combine (map fst vc) (fst r))) true.
Lemma fit_ok s X y sw ms mm u : snd (sc_fit s X y sw ms mm) = Ok u -> exists f, X = DFrame f /\ check_params (st_params s) = Ok tt /\
  check_scaling (st_params s) (w_target w y) = Ok tt /\ result (st_params s) (st_intercept s) f y sw ms mm (fst (sc_fit s X y sw ms mm)).
Proof.
  unfold sc_fit. destruct (check_params (st_params s)) as [[]|e] eqn:E1; [|discriminate]. destruct X as [f|]; [|discriminate]. cbv zeta.
  intros H. exists f. split; [reflexivity|]. split; [reflexivity|]. unfold result.
  destruct (w_target w y) eqn:Et; [| |discriminate].
  all: destruct (check_scaling (st_params s) _) as [[]|e] eqn:E2; [|discriminate]; split; [reflexivity|].
  all: match goal with |- context [if ?b then _ else _] => destruct b; [discriminate|] end.
  all: destruct (pick_frame f (so_names (st_params s))) as [g|e] eqn:E3; [|discriminate]; destruct (w_binning w (so_bp (st_params s)) g y sw) as [vars|e] eqn:E4; [|discriminate];
    destruct (transform_values vars ms mm g) as [M|e] eqn:E5; [|discriminate]; destruct (w_estimator w (so_est (st_params s)) M y sw) as [est|e] eqn:E6; [|discriminate];
    destruct (w_coef w est) as [[coefs ic]|] eqn:E7; [|discriminate]; destruct (with_coefs vars coefs) as [[|nv vc]|e] eqn:E8; try discriminate;
    exists g, vars, M, est, coefs, ic, (nv :: vc).
  all: do 6 (split; [first [reflexivity|assumption]|]); split; [discriminate|]; cbv zeta; cbn [st_intercept with_est with_process with_target with_metrics];
    destruct (fit_scorecard _ _ _ _ _ _ _ _ _ _) as [pts i]; reflexivity.
Qed.

(** ** histories *)
Lemma run_app s h h' : run s (h ++ h') = run (run s h) h'.
Proof. revert s. induction h as [|c h IH]; intros s; cbn; [reflexivity|apply IH]. Qed.
Lemma outcomes_app s h h' : outcomes s (h ++ h') = outcomes s h ++ outcomes (run s h) h'.
Proof. revert s. induction h as [|c h IH]; intros s; cbn; [reflexivity|now rewrite IH]. Qed.
Lemma step_fitted s c : st_fitted (fst (step s c)) = true <-> st_fitted s = true \/ (is_fit c /\ snd (step s c) = Ok AUnit).
Proof.
  destruct c as [X y sw ms mm|k X|X| |o]; cbn [step is_fit]; try (cbn; intuition; fail).
  destruct (sc_fit s X y sw ms mm) as [s' r] eqn:E. cbn [fst snd]. destruct r as [u|e].
  - pose proof (fit_ok_fitted s X y sw ms mm u) as F. rewrite E in F. destruct (F eq_refl) as [F1 _]. cbn in F1. destruct u. cbn. tauto.
  - pose proof (fit_err s X y sw ms mm e) as F. rewrite E in F. destruct (F eq_refl) as (_ & F1 & _). cbn in F1. rewrite F1. cbn. intuition discriminate.
Qed.
Lemma run_fitted h : forall s, st_fitted (run s h) = true <-> st_fitted s = true \/ some_fit_succeeded s h.
Proof.
  induction h as [|c h IH]; intros s; cbn [run].
  - split; [auto|]. intros [H|(X & y & sw & ms & mm & [])]. exact H.
  - rewrite IH, step_fitted. split.
    + intros [[H|[H1 H2]]|(X & y & sw & ms & mm & H)]; [auto| |].
      * right. destruct c as [X y sw ms mm| | | |]; try destruct H1. exists X, y, sw, ms, mm. left. now rewrite H2.
      * right. exists X, y, sw, ms, mm. right. exact H.
    + intros [H|(X & y & sw & ms & mm & [H|H])]; [auto| |].
      * injection H as H1 H2. subst c. left. right. split; [exact I|exact H2].
      * right. exists X, y, sw, ms, mm. exact H.
Qed.
Lemma run_df h : forall s, (st_fitted s = true -> st_df s <> None) -> st_fitted (run s h) = true -> st_df (run s h) <> None.
Proof.
  induction h as [|c h IH]; intros s Hs; cbn [run]; [exact Hs|]. apply IH. intros F. destruct c as [X y sw ms mm|k X|X| |o]; cbn [step] in *; try exact (Hs F).
  destruct (sc_fit s X y sw ms mm) as [s' [u|e]] eqn:E; cbn [fst] in *.
  - pose proof (fit_ok_fitted s X y sw ms mm u) as G. rewrite E in G. apply (G eq_refl).
  - pose proof (fit_err s X y sw ms mm e) as G. rewrite E in G. destruct (G eq_refl) as (G1 & G2 & _). cbn in G1, G2. rewrite G1, G2 in *. auto.
Qed.
Lemma object_state o0 h o : object o0 h o = with_params o (run (new_object o0) h).
Proof. unfold object. now rewrite run_app. Qed.
(** without intercept_based the intercept is never touched *)
Lemma fit_intercept s X y sw ms mm : so_ib (st_params s) = false -> st_intercept (fst (sc_fit s X y sw ms mm)) = st_intercept s.
Proof.
  intros Hib. destruct (snd (sc_fit s X y sw ms mm)) as [u|e] eqn:E.
  - destruct (fit_ok s X y sw ms mm u E) as (f & _ & _ & _ & g & vars & M & est & coefs & ic & vc & _ & _ & _ & _ & _ & _ & _ & R). cbv zeta in R. rewrite R. cbn [st_intercept].
    rewrite Hib. unfold fit_scorecard, finish. destruct (so_round (st_params s)); reflexivity.
  - apply (fit_err s X y sw ms mm e E).
Qed.
Lemma run_intercept o0 h : always (fun o => so_ib o = false) o0 h -> st_intercept (run (new_object o0) h) = 0%R.
Proof.
  intros [H0 H]. assert (G : forall h s, (forall o, In (CSet o) h -> so_ib o = false) -> so_ib (st_params s) = false -> st_intercept s = 0%R -> st_intercept (run s h) = 0%R).
  { clear. induction h as [|c h IH]; intros s Hh Hs Hi; cbn [run]; [exact Hi|]. destruct c as [X y sw ms mm|k X|X| |o]; cbn [step]; try (apply IH; [intros o' Ho; apply Hh; now right|exact Hs|exact Hi]).
    - destruct (sc_fit s X y sw ms mm) as [s' r] eqn:E. cbn [fst]. pose proof (fit_intercept s X y sw ms mm Hs) as F. pose proof (fit_params s X y sw ms mm) as P. rewrite E in F, P. cbn in F, P.
      apply IH; [intros o' Ho; apply Hh; now right|now rewrite P|now rewrite F].
    - cbn [fst]. apply IH; [intros o' Ho; apply Hh; now right|apply Hh; now left|exact Hi]. }
  apply G; [exact H|exact H0|reflexivity].
Qed.
Lemma ib_irrelevant sc rev rounding mip i j ms mm ic vars : fit_scorecard sc rev true rounding mip i ms mm ic vars = fit_scorecard sc rev true rounding mip j ms mm ic vars.
Proof. unfold fit_scorecard, finish. reflexivity. Qed.

(** the outcome of a fit depends only on the parameters; the state after it on the parameters and (without intercept_based) intercept_ *)
Lemma fit_same s1 s2 X y sw ms mm : st_params s1 = st_params s2 ->
  snd (sc_fit s1 X y sw ms mm) = snd (sc_fit s2 X y sw ms mm) /\
  ((so_ib (st_params s1) = true \/ st_intercept s1 = st_intercept s2) -> forall u, snd (sc_fit s1 X y sw ms mm) = Ok u -> fst (sc_fit s1 X y sw ms mm) = fst (sc_fit s2 X y sw ms mm)).
Proof.
  intros P. assert (A : snd (sc_fit s1 X y sw ms mm) = snd (sc_fit s2 X y sw ms mm)).
  { unfold sc_fit. rewrite P. destruct (check_params (st_params s2)); [|reflexivity]. destruct X as [f|]; [|reflexivity]. cbv zeta.
    destruct (w_target w y); [| |reflexivity]; (destruct (check_scaling _ _); [|reflexivity]); (match goal with |- context [if ?b then _ else _] => destruct b; [reflexivity|] end);
    (destruct (pick_frame _ _); [|reflexivity]); (destruct (w_binning _ _ _ _ _); [|reflexivity]); (destruct (transform_values _ _ _ _); [|reflexivity]);
    (destruct (w_estimator _ _ _ _ _); [|reflexivity]); (destruct (w_coef _ _) as [[? ?]|]; [|reflexivity]); (destruct (with_coefs _ _) as [[|? ?]|]; [reflexivity| |reflexivity]);
    destruct (fit_scorecard _ _ _ _ _ _ _ _ _ _), (fit_scorecard _ _ _ _ _ _ _ _ _ _); reflexivity. }
  split; [exact A|]. intros I u E. pose proof E as E'. rewrite A in E'. destruct (fit_ok s1 X y sw ms mm u E) as (f & -> & _ & _ & R1). destruct (fit_ok s2 (DFrame f) y sw ms mm u E') as (f' & Ef & _ & _ & R2).
  injection Ef as <-. rewrite <- P in R2. destruct R1 as (g & vars & M & est & coefs & ic & vc & A1 & A2 & A3 & A4 & A5 & A6 & A7 & A8). destruct R2 as (g' & vars' & M' & est' & coefs' & ic' & vc' & B1 & B2 & B3 & B4 & B5 & B6 & B7 & B8).
  assert (g' = g) by congruence. subst g'. assert (vars' = vars) by congruence. subst vars'. assert (M' = M) by congruence. subst M'. assert (est' = est) by congruence. subst est'.
  assert (coefs' = coefs /\ ic' = ic) as [-> ->] by (split; congruence). assert (vc' = vc) by congruence. subst vc'. cbv zeta in A8, B8. rewrite A8, B8.
  destruct I as [I| ->]; [|reflexivity]. rewrite I, (ib_irrelevant _ _ _ _ (st_intercept s1) (st_intercept s2)). reflexivity.
Qed.

(** reading *)
Lemma read_params o s c : is_read c -> snd (step (with_params o s) c) = snd (step s c).
Proof. destruct c as [| k X|X| |]; intros H; try destruct H; reflexivity. Qed.
Lemma read_run r : forall s c, (forall x, In x r -> ~ is_fit x) -> is_read c -> snd (step (run s r) c) = snd (step s c).
Proof.
  induction r as [|x r IH]; intros s c Hr Hc; cbn [run]; [reflexivity|]. rewrite IH; [|intros z Hz; apply Hr; now right|exact Hc].
  destruct x as [X y sw ms mm|k X|X| |o]; cbn [step fst]; try reflexivity; [exfalso; apply (Hr (CFit X y sw ms mm)); [now left|exact I]|]. now apply read_params.
Qed.

(** ** columns *)
Lemma pick_same c c' N names : (forall n, In n N -> dget c n = dget c' n) -> incl names N -> pick c names = pick c' names.
Proof.
  intros H I. induction names as [|n r IH]; cbn; [reflexivity|]. rewrite (H n) by (apply I; now left). rewrite IH by (intros z Hz; apply I; now right). reflexivity.
Qed.
Lemma pick_frame_same f f' N names : same_columns N f f' -> incl names N -> pick_frame f names = pick_frame f' names.
Proof. intros [H1 H2] I. unfold pick_frame. rewrite H1, (pick_same _ _ N names H2 I). reflexivity. Qed.
Lemma fit_same_columns s N f f' y sw ms mm : same_columns N f f' -> incl (so_names (st_params s)) N -> sc_fit s (DFrame f) y sw ms mm = sc_fit s (DFrame f') y sw ms mm.
Proof. intros H I. unfold sc_fit. now rewrite (pick_frame_same f f' N _ H I). Qed.
Definition names_in (N : list name) s : Prop := incl (so_names (st_params s)) N /\ match st_process s with Some p => incl (process_names p) N | None => True end.
Lemma fit_process s X y sw ms mm : st_process (fst (sc_fit s X y sw ms mm)) = st_process s \/ exists p, st_process (fst (sc_fit s X y sw ms mm)) = Some p /\ process_names p = so_names (st_params s).
Proof. unfold sc_fit. walk; cbn; eauto. Qed.
Lemma names_run N h : forall s, names_in N s -> (forall o, In (CSet o) h -> incl (so_names o) N) -> names_in N (run s h).
Proof.
  induction h as [|c h IH]; intros s Hs Hh; cbn [run]; [exact Hs|]. apply IH; [|intros o Ho; apply Hh; now right].
  destruct c as [X y sw ms mm|k X|X| |o]; cbn [step]; try exact Hs.
  - destruct (sc_fit s X y sw ms mm) as [s' r] eqn:E. cbn [fst]. pose proof (fit_params s X y sw ms mm) as P. pose proof (fit_process s X y sw ms mm) as Q. rewrite E in P, Q. cbn in P, Q.
    destruct Hs as [H1 H2]. split; [now rewrite P|]. destruct Q as [Q|(p & Q & R)]; rewrite Q; [exact H2|]. now rewrite R.
  - destruct Hs as [H1 H2]. split; [apply Hh; now left|exact H2].
Qed.
Lemma same_step N s c c' : names_in N s -> same_call N c c' -> step s c = step s c'.
Proof.
  intros [H1 H2] H. assert (PI : forall f f', same_columns N f f' -> process_input s (DFrame f) = process_input s (DFrame f')).
  { intros f f' S. unfold process_input. destruct (st_fitted s); [|reflexivity]. destruct (st_process s) as [p|]; [|reflexivity]. now rewrite (pick_frame_same f f' N _ S H2). }
  destruct H as [f f' y sw ms mm S|k f f' S|f f' S]; cbn [step].
  - now rewrite (fit_same_columns s N f f' y sw ms mm S H1).
  - unfold sc_predict. now rewrite (PI f f' S).
  - unfold sc_score. now rewrite (PI f f' S).
Qed.
End W.
