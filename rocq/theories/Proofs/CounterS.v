From Coq Require Import List ZArith Bool Arith Reals Lra Lia.
From Verif Require Import Model.Arr Model.Core Model.Cat Model.Metrics Model.Scorecard Model.Counterfactual
  Spec.CoreSpec Spec.CatSpec Spec.ScoreSpec Spec.CounterfactualSpec
  Proofs.MetricsP Proofs.MetricsQ Proofs.CounterP Proofs.CounterQ Proofs.CounterR.
Import ListNotations.
Open Scope R_scope.

Lemma lex_ext {A N} tol (q : N -> A -> R) names : forall (ok ok' : A -> Prop) c, (forall x, ok x <-> ok' x) ->
  lexicographic tol ok q names c -> lexicographic tol ok' q names c.
Proof.
  induction names as [|n [|m rest] IH]; intros ok ok' c He H; cbn [lexicographic] in *.
  - now apply He.
  - destruct H as (H1 & H2). split; [now apply He|]. intros c' Hc. apply H2. now apply He.
  - destruct H as (v & ((c0 & H0 & E0) & Hm) & Hl). exists v. split.
    + split; [exists c0; split; [now apply He|exact E0]|]. intros c' Hc. apply Hm. now apply He.
    + apply (IH (fun c' => ok c' /\ q n c' <= v + tol * Rabs v) (fun c' => ok' c' /\ q n c' <= v + tol * Rabs v) c); [|exact Hl]. intros y. now rewrite He.
Qed.

Section Opt.
Variables (sm : bool) (vars : list svar) (x : list R) (ic : R) (wr : list R) (F : nat -> nat -> R) (mu : list R) (pw : list ((R * R) * (R * R))).
Hypothesis Hx : length x = length vars.
Hypothesis Hok : forall v, In v vars -> length (sv_metric v) = (n_bins_of v + n_special (sv_sp v) + 1)%nat.
Hypothesis Hsp : forall v, In v vars -> sm = true \/ n_special (sv_sp v) = 1%nat.
Hypothesis Hwr : forall w, In w wr -> 0 <= w.
Let D := make_data sm vars x ic wr F mu pw.
Variables (G : cfparams) (o : outcome) (K : nat).
Hypothesis Hprox : g_prox G <> None.
Hypothesis Ho : forall y, o <> OProb y.
Hypothesis Hdiff : g_diff G <> None -> exists y, o = OCont y.
Hypothesis Hn : forall i, In i (g_nonact G) -> (i < length vars)%nat.
Let q n cs := quantity D vars o K cs n.

Lemma bound_any S n : feasible G D o K S -> weight_of_obj G n <> None -> q n (found D S) <= obj D K S n.
Proof.
  intros Hf Hw. destruct n; cbn [weight_of_obj] in Hw.
  - eapply bound_prox; eassumption.
  - eapply bound_close; eassumption.
  - destruct (Hdiff Hw) as (y & Hy). eapply bound_diff; eassumption.
  - apply Req_le. eapply bound_divf; eassumption.
  - apply Req_le. eapply bound_divv; eassumption.
Qed.
Lemma found_met S : feasible G D o K S -> request_met sm G D vars o K (found D S).
Proof. intros Hf. eapply sound_request; eassumption. Qed.
Lemma met_found cs : request_met sm G D vars o K cs -> exists S, feasible G D o K S /\ forall n, obj D K S n = q n cs.
Proof.
  intros Hr. exists (build sm vars x ic wr F mu pw o cs). split; [now apply build_feasible|]. intros n. eapply build_obj; eassumption.
Qed.

Lemma weighted_optimal S : (forall n w, weight_of_obj G n = Some w -> 0 <= w) ->
  feasible G D o K S -> (forall S', feasible G D o K S' -> weighted_cost G D K S <= weighted_cost G D K S') ->
  forall cs, request_met sm G D vars o K cs -> total_cost G D vars o K (found D S) <= total_cost G D vars o K cs.
Proof.
  intros Hw Hf Hb cs Hr. destruct (met_found cs Hr) as (S' & Hf' & Ho').
  apply Rle_trans with (weighted_cost G D K S).
  - unfold total_cost, weighted_cost. apply rsum_le. intros n _. destruct (weight_of_obj G n) as [w|] eqn:E; [|lra].
    apply Rmult_le_compat_l; [now apply (Hw n)|]. apply bound_any; [exact Hf|congruence].
  - apply Rle_trans with (weighted_cost G D K S'); [now apply Hb|]. apply Req_le. unfold total_cost, weighted_cost.
    apply rsum_ext. intros n _. destruct (weight_of_obj G n); [now rewrite Ho'|reflexivity].
Qed.

Section Hier.
Variable tol : R.
Hypothesis Htol : 0 <= tol.
Definition kept_pre (pre : list (oname * R)) (cs : nat -> moves) : Prop := forall n v, In (n, v) pre -> q n cs <= v + tol * Rabs v.
Definition ok_pre (pre : list (oname * R)) (cs : nat -> moves) : Prop := request_met sm G D vars o K cs /\ kept_pre pre cs.
(** every recorded value is a lower bound for the alternatives *)
Definition low (pre : list (oname * R)) : Prop := forall n v cs, In (n, v) pre -> ok_pre pre cs -> v <= q n cs.
Definition weighted_names (pre : list (oname * R)) : Prop := forall n v, In (n, v) pre -> weight_of_obj G n <> None.

Lemma tol_kept S pre : weighted_names pre -> feasible G D o K S -> within_tol tol D K S pre -> ok_pre pre (found D S).
Proof.
  intros Hp Hf Hw. split; [now apply found_met|]. intros n v Hin. destruct (Hw n v Hin) as (dp & dm & H1 & H2 & H3 & H4).
  pose proof (bound_any S n Hf (Hp n v Hin)). lra.
Qed.
Lemma kept_tol cs pre : low pre -> ok_pre pre cs -> exists S, feasible G D o K S /\ within_tol tol D K S pre /\ forall n, obj D K S n = q n cs.
Proof.
  intros Hl Hk. destruct (met_found cs (proj1 Hk)) as (S & Hf & HS). exists S. split; [exact Hf|split; [|exact HS]].
  intros n v Hin. rewrite HS. pose proof (Hl n v cs Hin Hk). pose proof (proj2 Hk n v Hin).
  exists (q n cs - v), 0. split; [lra|split; [lra|split; lra]].
Qed.
Lemma stage n pre S : low pre -> weighted_names pre -> weight_of_obj G n <> None -> stage_best tol G D o K n pre S ->
  ok_pre pre (found D S) /\ q n (found D S) = obj D K S n /\ forall cs, ok_pre pre cs -> obj D K S n <= q n cs.
Proof.
  intros Hl Hp Hn' (Hf & Hw & Hb). pose proof (tol_kept S pre Hp Hf Hw) as Hk.
  assert (Hm : forall cs, ok_pre pre cs -> obj D K S n <= q n cs).
  { intros cs Hc. destruct (kept_tol cs pre Hl Hc) as (S' & Hf' & Hw' & HS'). rewrite <- HS'. now apply Hb. }
  split; [exact Hk|split; [|exact Hm]]. apply Rle_antisym; [now apply bound_any|now apply Hm].
Qed.
Lemma hier_lex names pre S : hierarchical tol G D o K names pre S -> low pre -> weighted_names pre ->
  (forall n, In n names -> weight_of_obj G n <> None) -> lexicographic tol (ok_pre pre) q names (found D S).
Proof.
  induction 1 as [n pre S Hs|n m rest pre S0 S Hs Hh IH]; intros Hl Hp Hnm.
  - destruct (stage n pre S Hl Hp (Hnm n (or_introl eq_refl)) Hs) as (H1 & H2 & H3). cbn [lexicographic]. split; [exact H1|].
    intros cs Hc. rewrite H2. now apply H3.
  - destruct (stage n pre S0 Hl Hp (Hnm n (or_introl eq_refl)) Hs) as (H1 & H2 & H3).
    change (exists v, is_least (ok_pre pre) (q n) v /\ lexicographic tol (fun c' => ok_pre pre c' /\ q n c' <= v + tol * Rabs v) q (m :: rest) (found D S)).
    exists (obj D K S0 n). split; [split; [now exists (found D S0)|exact H3]|].
    assert (He : forall cs, ok_pre (pre ++ [(n, obj D K S0 n)]) cs <-> ok_pre pre cs /\ q n cs <= obj D K S0 n + tol * Rabs (obj D K S0 n)).
    { intros cs. unfold ok_pre, kept_pre. split.
      - intros (Hr & Hk). split; [split; [exact Hr|intros n' v Hin; apply Hk, in_or_app; now left]|apply Hk, in_or_app; right; now left].
      - intros ((Hr & Hk) & Hq). split; [exact Hr|]. intros n' v Hin. apply in_app_or in Hin as [Hin|[Hin|[]]]; [now apply Hk|]. injection Hin as <- <-. exact Hq. }
    apply (lex_ext tol q (m :: rest) (ok_pre (pre ++ [(n, obj D K S0 n)]))); [exact He|]. apply IH.
    + intros n' v cs Hin Hc. apply He in Hc as (Hc & _). apply in_app_or in Hin as [Hin|[Hin|[]]]; [now apply (Hl n' v cs)|].
      injection Hin as <- <-. now apply H3.
    + intros n' v Hin. apply in_app_or in Hin as [Hin|[Hin|[]]]; [now apply (Hp n' v)|]. injection Hin as <- <-. apply Hnm. now left.
    + intros n' Hin. apply Hnm. now right.
Qed.
Lemma hier_lex0 names S : hierarchical tol G D o K names [] S -> (forall n, In n names -> weight_of_obj G n <> None) ->
  lexicographic tol (request_met sm G D vars o K) q names (found D S).
Proof.
  intros H Hnm. eapply lex_ext; [|apply (hier_lex names [] S H); [intros ? ? ? []|intros ? ? []|exact Hnm]].
  intros cs. unfold ok_pre, kept_pre. split; [now intros (Hr & _)|intros Hr; split; [exact Hr|intros ? ? []]].
Qed.
End Hier.
End Opt.
