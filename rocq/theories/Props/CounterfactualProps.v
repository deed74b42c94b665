(** Counterfactual explanations of a scorecard (C63). [feasible G D o K S]: [S] satisfies the constraints Counterfactual.generate posts
    for [K] counterfactuals; [found D S]: what display() shows for it, as moves to rows of the binning tables. *)
From Coq Require Import Permutation List ZArith Bool Arith Reals Lra Lia.
From Verif Require Import Model.Arr Model.Core Model.Cat Model.Metrics Model.Scorecard Model.Counterfactual
  Spec.CoreSpec Spec.CatSpec Spec.ScoreSpec Spec.CounterfactualSpec
  Proofs.MetricsP Proofs.MetricsQ Proofs.CounterP Proofs.CounterQ Proofs.CounterR Proofs.CounterS.
Import ListNotations.
Open Scope R_scope.

(** One special row per variable (special_codes None or a list), or candidates among all rows. *)
Definition plain_rows (sm : bool) (vars : list svar) : Prop := forall v, In v vars -> sm = true \/ n_special (sv_sp v) = 1%nat.

Lemma ok_len vars : Forall svar_ok vars -> forall v, In v vars -> length (sv_metric v) = (n_bins_of v + n_special (sv_sp v) + 1)%nat.
Proof. intros H v Hv. rewrite Forall_forall in H. apply (H v Hv). Qed.

(** Whatever the objectives: display() does not fail, and every counterfactual moves only actionable features, at most max_changes of
    them, and only to bins (special_missing=True: or special and missing rows) with another value than the query's. *)
Theorem C63_changes sm vars q x ic wr F mu pw G o K S : Forall svar_ok vars -> plain_rows sm vars -> transform_query vars q = Ok x ->
  let D := make_data sm vars x ic wr F mu pw in feasible G D o K S -> forall k, (k < K)%nat ->
  (forall i, shown_feature D (v_z (s_V S k)) i = Ok (match found D S k i with Some j => NewBin j | None => Kept end)) /\
  valid_moves sm vars x (g_maxch G) (g_nonact G) (found D S k).
Proof.
  intros Hv Hp Hq D (Hf & _) k Hk. destruct (transform_query_nth _ _ _ Hq) as (Hx & _). destruct (Hf k Hk) as (_ & _ & Hc & _). split.
  - intros i. exact (sound_shown sm vars x ic wr F mu pw Hx G _ Hc i).
  - exact (sound_valid sm vars x ic wr F mu pw Hx (ok_len _ Hv) Hp G _ Hc).
Qed.
Print Assumptions C63_changes.

(** Outcome types binary and continuous, with the proximity objective: the score and the probability computed for a counterfactual are
    those of the moves it shows, and they meet the requested outcome. *)
Theorem C63_outcome sm vars q x ic wr F mu pw G o K S : Forall svar_ok vars -> plain_rows sm vars -> transform_query vars q = Ok x ->
  let D := make_data sm vars x ic wr F mu pw in g_prox G <> None -> (forall y, o <> OProb y) -> feasible G D o K S ->
  request_met sm G D vars o K (found D S) /\
  forall k, (k < K)%nat -> cf_score D (v_z (s_V S k)) = score_after vars x ic (found D S k) /\
    (o = OBin true -> shown_probability D (v_z (s_V S k)) > 1 / 2) /\ (o = OBin false -> shown_probability D (v_z (s_V S k)) <= 1 / 2) /\
    (forall y, o = OCont y -> (g_min G = true -> cf_score D (v_z (s_V S k)) >= y) /\ (g_max G = true -> cf_score D (v_z (s_V S k)) <= y)).
Proof.
  intros Hv Hp Hq D Hpr Ho Hf. destruct (transform_query_nth _ _ _ Hq) as (Hx & _).
  pose proof (sound_request sm vars x ic wr F mu pw Hx (ok_len _ Hv) Hp G o K S Hf Hpr Ho) as Hr. split; [exact Hr|].
  intros k Hk. assert (Es : cf_score D (v_z (s_V S k)) = score_after vars x ic (found D S k)).
  { destruct (proj1 Hf k Hk) as (_ & _ & Hc & _). exact (sound_cf_score sm vars x ic wr F mu pw Hx (ok_len _ Hv) Hp G _ Hc). }
  split; [exact Es|]. destruct Hr as (Hr & _). destruct (Hr k Hk) as (_ & Hm0).
  assert (Hm : outcome_met (g_min G) (g_max G) o (score_after vars x ic (found D S k))) by exact Hm0. clear Hm0.
  rewrite <- Es in Hm. unfold outcome_met in Hm. unfold shown_probability.
  set (s := cf_score D (v_z (s_V S k))) in *.
  pose proof (exp_pos (- s)) as He. split; [|split].
  - intros ->. assert (0 < s) by lra. assert (exp (- s) < 1) by (rewrite <- exp_0; apply exp_increasing; lra).
    apply Rlt_gt. apply Rmult_lt_reg_r with (1 + exp (- s)); [lra|]. unfold Rdiv at 2. rewrite Rmult_assoc, Rinv_l by lra. lra.
  - intros ->. assert (1 <= exp (- s)). { rewrite <- exp_0. destruct (Rle_lt_or_eq_dec s 0 Hm) as [H|H]; [left; apply exp_increasing; lra|rewrite H, Ropp_0; right; reflexivity]. }
    apply Rmult_le_reg_r with (1 + exp (- s)); [lra|]. unfold Rdiv at 1. rewrite Rmult_assoc, Rinv_l by lra. lra.
  - intros y ->. destruct Hm as (H1 & H2). split; intros H; [apply Rle_ge; now apply H1|now apply H2].
Qed.
Print Assumptions C63_outcome.

(** Outcome type probability: the probability required to meet the bounds is a linear interpolation on one segment, which contains the
    score of the shown moves. If the interpolation is within [eps] of the logistic function, the displayed probability meets the bounds
    up to [eps]. *)
Theorem C63_probability sm vars q x ic wr F mu pw G y K S eps : Forall svar_ok vars -> plain_rows sm vars -> transform_query vars q = Ok x ->
  let D := make_data sm vars x ic wr F mu pw in g_prox G <> None -> feasible G D (OProb y) K S ->
  (forall r t, (r < length pw)%nat -> fst (fst (segment pw r)) <= t <= snd (fst (segment pw r)) ->
     Rabs (snd (snd (segment pw r)) * t + fst (snd (segment pw r)) - logistic t) <= eps) ->
  forall k, (k < K)%nat -> shown_probability D (v_z (s_V S k)) = logistic (score_after vars x ic (found D S k)) /\
    (g_min G = true -> shown_probability D (v_z (s_V S k)) >= y - eps) /\ (g_max G = true -> shown_probability D (v_z (s_V S k)) <= y + eps).
Proof.
  intros Hv Hp Hq D Hpr Hf He k Hk. destruct (transform_query_nth _ _ _ Hq) as (Hx & _).
  destruct (proj1 Hf k Hk) as (Hpx & _ & Hc & Ho & Hm & HM & _).
  assert (Es : cf_score D (v_z (s_V S k)) = score_after vars x ic (found D S k)).
  { exact (sound_cf_score sm vars x ic wr F mu pw Hx (ok_len _ Hv) Hp G _ Hc). }
  assert (Ea : activation D (s_V S k) = score_after vars x ic (found D S k)).
  { exact (sound_activation sm vars x ic wr F mu pw Hx (ok_len _ Hv) Hp G _ Hc (Hpx Hpr)). }
  assert (Ep : shown_probability D (v_z (s_V S k)) = logistic (score_after vars x ic (found D S k))).
  { unfold shown_probability, logistic. now rewrite Es. }
  split; [exact Ep|]. destruct (pw_segment D (s_V S k) Ho) as (r & Hr & Hb & Hf' & _). change (d_pw D) with pw in *.
  specialize (He r _ Hr Hb). rewrite <- Hf', Ea in He. rewrite Ep. pose proof (Rle_abs (v_f (s_V S k) - logistic (score_after vars x ic (found D S k)))) as He1. pose proof (Rle_abs (- (v_f (s_V S k) - logistic (score_after vars x ic (found D S k))))) as He2. rewrite Rabs_Ropp in He2. split; intros H; [specialize (Hm H)|specialize (HM H)]; lra.
Qed.
Print Assumptions C63_probability.

(** The moves are shown as bins; for a sample that lies in these bins and keeps the other values, the fitted scorecard predicts the score
    shown, if the kept values are scored alike by the explainer (special and missing values always as 0) and by the scorecard. *)
Theorem C63_prediction ms mm vars q x ic wr F mu pw G o K S k xs : Forall svar_ok vars -> plain_rows false vars ->
  transform_query vars q = Ok x ->
  let D := make_data false vars x ic wr F mu pw in feasible G D o K S -> (k < K)%nat -> realises vars q xs (found D S k) ->
  (forall i v a, nth_error vars i = Some v -> nth_error q i = Some a -> found D S k i = None -> query_value_agrees ms mm v a) ->
  exists l, linear_sum ms mm vars xs = Ok l /\ ic + l = cf_score D (v_z (s_V S k)).
Proof.
  intros Hv Hp Hq D Hf Hk Hr Ha. destruct (transform_query_nth _ _ _ Hq) as (Hx & _).
  destruct (proj1 Hf k Hk) as (_ & _ & Hc & _).
  assert (Es : cf_score D (v_z (s_V S k)) = score_after vars x ic (found D S k)).
  { exact (sound_cf_score false vars x ic wr F mu pw Hx (ok_len _ Hv) Hp G _ Hc). }
  rewrite Es. eapply prediction; [exact Hv|exact Hq|reflexivity| |exact Hr|exact Ha].
  exact (sound_valid false vars x ic wr F mu pw Hx (ok_len _ Hv) Hp G _ Hc).
Qed.
Print Assumptions C63_prediction.

(** The hard constraints diversity_features and diversity_values hold between every two counterfactuals. *)
Theorem C63_diversity sm vars q x ic wr F mu pw G o K S : Forall svar_ok vars -> plain_rows sm vars -> transform_query vars q = Ok x ->
  let D := make_data sm vars x ic wr F mu pw in g_prox G <> None -> feasible G D o K S ->
  diverse_moves (g_divf G) (g_divv G) (length vars) K (found D S).
Proof.
  intros Hv Hp Hq D Hpr Hf. destruct (transform_query_nth _ _ _ Hq) as (Hx & _).
  exact (sound_diverse sm vars x ic wr F mu pw Hx (ok_len _ Hv) Hp G o K S Hf Hpr).
Qed.
Print Assumptions C63_diversity.

Lemma nonact_lt p a : forall i, In i (non_actionable p a) -> (i < p)%nat.
Proof.
  destruct a as [l|]; cbn [non_actionable]; intros i H; [|destruct H]. apply filter_In in H as (H & _). now apply in_seq0.
Qed.

(** Counterfactuals are found exactly when the request can be met. *)
Theorem C63_found_iff sm vars q x ic wr F mu pw G o K actionable : Forall svar_ok vars -> plain_rows sm vars -> transform_query vars q = Ok x ->
  let D := make_data sm vars x ic wr F mu pw in g_prox G <> None -> (forall y, o <> OProb y) ->
  g_nonact G = non_actionable (length vars) actionable ->
  (exists S, feasible G D o K S) <-> exists cs, request_met sm G D vars o K cs.
Proof.
  intros Hv Hp Hq D Hpr Ho Hn. destruct (transform_query_nth _ _ _ Hq) as (Hx & _). split.
  - intros (S & Hf). exists (found D S). now apply (C63_outcome sm vars q x ic wr F mu pw G o K S).
  - intros (cs & Hr). exists (build sm vars x ic wr F mu pw o cs).
    apply (build_feasible sm vars x ic wr F mu pw Hx (ok_len _ Hv) Hp G o K cs Hr); [|exact Ho]. rewrite Hn. apply nonact_lt.
Qed.
Print Assumptions C63_found_iff.

(** method="weighted", solved to optimality: no counterfactuals meeting the request have a smaller weighted sum of the objectives. *)
Theorem C63_weighted_optimal sm vars q x ic wr F mu pw G o K S actionable : Forall svar_ok vars -> plain_rows sm vars ->
  transform_query vars q = Ok x -> let D := make_data sm vars x ic wr F mu pw in
  (forall w, In w wr -> 0 <= w) -> g_prox G <> None -> (forall y, o <> OProb y) -> (g_diff G <> None -> exists y, o = OCont y) ->
  g_nonact G = non_actionable (length vars) actionable -> (forall n w, weight_of_obj G n = Some w -> 0 <= w) ->
  feasible G D o K S -> (forall S', feasible G D o K S' -> weighted_cost G D K S <= weighted_cost G D K S') ->
  request_met sm G D vars o K (found D S) /\
  forall cs, request_met sm G D vars o K cs -> total_cost G D vars o K (found D S) <= total_cost G D vars o K cs.
Proof.
  intros Hv Hp Hq D Hwr Hpr Ho Hd Hn Hw Hf Hb. destruct (transform_query_nth _ _ _ Hq) as (Hx & _).
  split; [now apply (C63_outcome sm vars q x ic wr F mu pw G o K S)|].
  apply (weighted_optimal sm vars x ic wr F mu pw Hx (ok_len _ Hv) Hp Hwr G o K Hpr Ho Hd); [|exact Hw|exact Hf|exact Hb].
  rewrite Hn. apply nonact_lt.
Qed.
Print Assumptions C63_weighted_optimal.

(** max_changes: the limit given by the user; half of the features by default. Together with C63_found_iff: exactly the
    requests within this limit are considered. *)
Theorem C63_max_changes sm vars x m na c : 
  valid_moves sm vars x (max_changes (length vars) m) na c <->
  within_max_changes (length vars) m (n_changed (length vars) c) /\
  forall i j, c i = Some j -> ~ In i na /\ exists v a, nth_error vars i = Some v /\ nth_error x i = Some a /\ row_allowed sm v a j.
Proof.
  unfold valid_moves. assert (E : (Z.of_nat (n_changed (length vars) c) <= max_changes (length vars) m)%Z <-> within_max_changes (length vars) m (n_changed (length vars) c)).
  { destruct m as [n|]; cbn [max_changes within_max_changes]; [reflexivity|]. generalize (n_changed (length vars) c) (length vars). intros k p.
    pose proof (Nat.div_mod p 2 ltac:(lia)). pose proof (Nat.mod_upper_bound p 2 ltac:(lia)). lia. }
  rewrite E. tauto.
Qed.
Print Assumptions C63_max_changes.

(** Sorting of the objectives. *)
Lemma ins_perm x l : Permutation (insert_desc x l) (x :: l).
Proof.
  induction l as [|y r IH]; cbn [insert_desc]; [reflexivity|]. destruct (Rle_dec (snd y) (snd x)); [reflexivity|]. rewrite IH. apply perm_swap.
Qed.
Lemma isort_perm items : Permutation (fold_right insert_desc [] items) items.
Proof. induction items as [|x l IH]; [reflexivity|]. cbn [fold_right]. now rewrite ins_perm, IH. Qed.
(** [before items l]: earlier entries of [l] have a larger weight, or the same weight and an earlier place in [items] *)
Definition ranked (items : list (oname * R)) (p q : oname * R) : Prop :=
  snd q <= snd p /\ (snd q = snd p -> exists a b c, items = a ++ p :: b ++ q :: c).
Lemma ranked_cons z items p q : ranked items p q -> ranked (z :: items) p q.
Proof. intros [H1 H2]. split; [exact H1|]. intros E. destruct (H2 E) as (a & b & c & ->). now exists (z :: a), b, c. Qed.
Inductive chain (items : list (oname * R)) : list (oname * R) -> Prop :=
| chain_nil : chain items []
| chain_cons : forall x l, (forall y, In y l -> ranked items x y) -> chain items l -> chain items (x :: l).
Lemma chain_weaken z items l : chain items l -> chain (z :: items) l.
Proof. induction 1 as [|x l H _ IH]; constructor; [intros y Hy; apply ranked_cons; auto|exact IH]. Qed.
Lemma ins_chain x items l : (forall y, In y l -> In y items) -> chain items l -> chain (x :: items) (insert_desc x l).
Proof.
  intros Hin H. induction H as [|y r Hy Hr IH]; cbn [insert_desc]; [constructor; [intros y []|constructor]|].
  destruct (Rle_dec (snd y) (snd x)) as [L|L].
  - constructor; [|constructor; [intros z Hz; apply ranked_cons; auto|now apply chain_weaken]].
    intros z Hz. assert (snd z <= snd x).
    { destruct Hz as [<-|Hz]; [exact L|]. destruct (Hy z Hz) as [Hz' _]. lra. }
    split; [assumption|]. intros _. destruct (in_split z items (Hin z Hz)) as (a & b & ->). now exists [], a, b.
  - constructor; [|apply IH; intros z Hz; apply Hin; now right].
    intros z Hz. apply (Permutation_in _ (ins_perm x r)) in Hz as [<-|Hz]; [|apply ranked_cons; auto].
    split; [lra|]. intros E. lra.
Qed.
Lemma isort_chain items : chain items (fold_right insert_desc [] items).
Proof.
  induction items as [|x l IH]; [constructor|]. cbn [fold_right]. apply ins_chain; [|exact IH]. intros y Hy. now apply (Permutation_in _ (isort_perm l)).
Qed.
Lemma chain_pair items l : chain items l -> forall a p b q c, l = a ++ p :: b ++ q :: c -> ranked items p q.
Proof.
  induction 1 as [|x l H _ IH]; intros a p b q c E; [destruct a; discriminate|]. destruct a as [|a0 a].
  - injection E as -> E. apply H. rewrite E. apply in_or_app. right. now left.
  - injection E as _ E. exact (IH a p b q c E).
Qed.
Lemma hier_by_priority items : NoDup (map fst items) -> by_priority items (hier_names items).
Proof.
  intros Hnd. unfold hier_names. split; [apply Permutation_map, isort_perm|]. intros a n b m c w v E Hn Hm.
  set (s := fold_right insert_desc [] items) in *. pose proof (isort_perm items) as P. fold s in P.
  assert (U : forall k w1 w2, In (k, w1) items -> In (k, w2) items -> w1 = w2).
  { intros k w1 w2 A B. clear -Hnd A B. induction items as [|[k0 w0] l IH]; [destruct A|]. cbn [map fst] in Hnd. apply NoDup_cons_iff in Hnd as [Hn Hnd].
    destruct A as [A|A], B as [B|B]; try congruence.
    - injection A as -> _. destruct Hn. apply in_map_iff. now exists (k, w2).
    - injection B as -> _. destruct Hn. apply in_map_iff. now exists (k, w1).
    - now apply IH. }
  apply map_eq_app in E as (l1 & l2 & Es & E1 & E2). apply map_eq_cons in E2 as (p & l3 & E2 & Ep & E3).
  apply map_eq_app in E3 as (l4 & l5 & E3 & E4 & E5). apply map_eq_cons in E5 as (q & l6 & E5 & Eq & E6). subst l2 l3 l5.
  destruct p as [n' w'], q as [m' v']. cbn [fst] in Ep, Eq. subst n' m'.
  assert (In1 : In (n, w') items) by (apply (Permutation_in _ P); rewrite Es; apply in_or_app; right; now left).
  assert (In2 : In (m, v') items) by (apply (Permutation_in _ P); rewrite Es; apply in_or_app; right; right; apply in_or_app; right; now left).
  rewrite (U n w w' Hn In1), (U m v v' Hm In2). exact (chain_pair items s (isort_chain items) l1 (n, w') l4 (m, v') l6 Es).
Qed.

(** method="hierarchical", every stage solved to optimality: the objectives are optimised by descending weight, each one without
    worsening the optimum of a previous one by more than the fraction priority_tol. *)
Theorem C63_hierarchical sm vars q x ic wr F mu pw G o K S actionable tol items : Forall svar_ok vars -> plain_rows sm vars ->
  transform_query vars q = Ok x -> let D := make_data sm vars x ic wr F mu pw in
  (forall w, In w wr -> 0 <= w) -> g_prox G <> None -> (forall y, o <> OProb y) -> (g_diff G <> None -> exists y, o = OCont y) ->
  g_nonact G = non_actionable (length vars) actionable -> weights_dict G items -> hierarchical tol G D o K (hier_names items) [] S ->
  by_priority items (hier_names items) /\
  lexicographic tol (request_met sm G D vars o K) (fun n cs => quantity D vars o K cs n) (hier_names items) (found D S).
Proof.
  intros Hv Hp Hq D Hwr Hpr Ho Hd Hn (Hnd & Hnm) Hh. pose proof (hier_by_priority items Hnd) as Hbp. split; [exact Hbp|]. destruct (transform_query_nth _ _ _ Hq) as (Hx & _).
  apply (hier_lex0 sm vars x ic wr F mu pw Hx (ok_len _ Hv) Hp Hwr G o K Hpr Ho Hd).
  - rewrite Hn. apply nonact_lt.
  - exact Hh.
  - intros n Hin. destruct Hbp as [Hbp _]. apply (Permutation_in _ Hbp), in_map_iff in Hin as ((n' & w) & E & Hin). cbn in E. subst n'.
    apply Hnm in Hin. congruence.
Qed.
Print Assumptions C63_hierarchical.

Example C63_priorities : hier_names [(NClose, 1); (NProx, 2); (NDiff, 1)] = [NProx; NClose; NDiff].
Proof.
  unfold hier_names. cbn [fold_right insert_desc snd]. destruct (Rle_dec 1 2); [|lra]. cbn [insert_desc snd]. destruct (Rle_dec 2 1); [lra|].
  cbn [insert_desc snd]. destruct (Rle_dec 1 1); [reflexivity|lra].
Qed.

(** ** Where the property fails *)

(** Several special codes in a dict: special_missing=False leaves out only the last two rows of the table, so that special rows remain
    among the candidates. Two variables with two bins; class 1 can be reached through no bin, and still there is a solution. *)
Definition sp2 : special := SpDict [(1%Z, [XNum 100]); (2%Z, [XNum 200])].
Definition vs : list svar := [mkV (Num [0%Z]) sp2 [-1; -2; 3; 0; 0] 0 1; mkV (Num [0%Z]) SpNone [-1; -2; 0; 0] 0 1].
Definition g1 : cfparams := {| g_prox := Some 1; g_close := None; g_diff := None; g_wdivf := None; g_wdivv := None; g_min := false; g_max := false;
  g_divf := false; g_divv := false; g_maxch := max_changes 2 None; g_nonact := non_actionable 2 None |}.
Definition noF : nat -> nat -> R := fun _ _ => 0.
Lemma score2 v w x ic c : score_after [v; w] x ic c =
  ic + (sv_coef v * value_after [sv_metric v; sv_metric w] x c 0 + (sv_coef w * value_after [sv_metric v; sv_metric w] x c 1 + 0)).
Proof. reflexivity. Qed.
Lemma two_rows (P : nat -> Prop) j : (j < 2)%nat -> P 0%nat -> P 1%nat -> P j.
Proof. intros H H0 H1. destruct j as [|[|j]]; [exact H0|exact H1|lia]. Qed.
Lemma sorted1 a : nondecreasing [a].
Proof. repeat constructor. Qed.
Lemma sorted2 a b : (a <= b)%Z -> nondecreasing [a; b].
Proof. intros H. constructor; [apply sorted1|constructor; [exact H|constructor]]. Qed.
Ltac ok_var := split; [|split; [reflexivity|first [apply sorted1|apply sorted2; lia]]].
Lemma dict2 : sp_disjoint sp2.
Proof.
  intros i j a b v Hi Hj Ha Hb. destruct i as [|[|i]], j as [|[|j]]; cbn in Hi, Hj; try reflexivity; try (destruct i; discriminate); try (destruct j; discriminate);
  injection Hi as <-; injection Hj as <-; destruct Ha as [<-|[]]; destruct Hb as [Hb|[]]; discriminate.
Qed.
Lemma request_one sm G D vars o c : valid_moves sm vars (d_x D) (g_maxch G) (g_nonact G) c ->
  outcome_met (g_min G) (g_max G) o (score_after vars (d_x D) (d_int D) c) -> request_met sm G D vars o 1 (fun _ => c).
Proof. intros Hv Ho. split; [intros k Hk; split; assumption|intros k l Hkl; lia]. Qed.
Theorem C63_special_rows_refuted :
  let x := [-1; -1] in let D := make_data false vs x 0 [1; 1] noF [0; 0] [] in
  Forall svar_ok vs /\ transform_query vs [XNum (-5); XNum (-5)] = Ok x /\
  (exists S, feasible g1 D (OBin true) 1 S) /\
  (forall S, feasible g1 D (OBin true) 1 S -> ~ valid_moves false vs x (g_maxch g1) (g_nonact g1) (found D S 0)) /\
  (forall c, valid_moves false vs x (g_maxch g1) (g_nonact g1) c -> ~ outcome_met false false (OBin true) (score_after vs x 0 c)).
Proof.
  intros x D. assert (Hno : forall c, valid_moves false vs x (g_maxch g1) (g_nonact g1) c -> ~ outcome_met false false (OBin true) (score_after vs x 0 c)).
  { intros c (Hc & _) Ho. cbn [outcome_met] in Ho. unfold vs in Ho. rewrite score2 in Ho. cbn [sv_coef sv_metric] in Ho.
    assert (H0 : value_after [[-1; -2; 3; 0; 0]; [-1; -2; 0; 0]] x c 0 <= -1).
    { unfold value_after. destruct (c 0%nat) as [j|] eqn:E; [|cbn; lra]. destruct (Hc 0%nat j E) as (_ & v & a & Ev & _ & Hj & _). injection Ev as <-. revert Hj. cbn [n_bins_of sv_bins length].
      intros Hj. apply (two_rows (fun j => nth j [-1; -2; 3; 0; 0] 0 <= -1) j Hj); cbn; lra. }
    assert (H1 : value_after [[-1; -2; 3; 0; 0]; [-1; -2; 0; 0]] x c 1 <= -1).
    { unfold value_after. destruct (c 1%nat) as [j|] eqn:E; [|cbn; lra]. destruct (Hc 1%nat j E) as (_ & v & a & Ev & _ & Hj & _). injection Ev as <-. revert Hj. cbn [n_bins_of sv_bins length].
      intros Hj. apply (two_rows (fun j => nth j [-1; -2; 0; 0] 0 <= -1) j Hj); cbn; lra. }
    lra. }
  split; [|split; [reflexivity|split; [|split; [|exact Hno]]]].
  - constructor; [ok_var; exact dict2|constructor; [ok_var; exact I|constructor]].
  - set (vs' := [mkV (Num [0%Z; 1%Z]) SpNone [-1; -2; 3; 0; 0] 0 1; mkV (Num [0%Z]) SpNone [-1; -2; 0; 0] 0 1]).
    assert (Hv : Forall svar_ok vs') by (constructor; [ok_var; exact I|constructor; [ok_var; exact I|constructor]]).
    eexists. apply (build_feasible false vs' x 0 [1; 1] noF [0; 0] [] eq_refl (ok_len _ Hv)) with (cs := fun _ i => match i with O => Some 2%nat | _ => None end).
    + intros v [<-|[<-|[]]]; right; reflexivity.
    + apply request_one.
      * split; [|vm_compute; discriminate]. intros [|i] j E; [|discriminate]. injection E as <-. split; [intros []|]. eexists; eexists. split; [reflexivity|split; [reflexivity|]].
        split; [vm_compute; lia|cbn; lra].
      * cbn [outcome_met d_x d_int make_data]. unfold vs'. rewrite score2. unfold value_after, x. cbn. lra.
    + intros i [].
    + intros y; discriminate.
  - intros S Hf Hvm. apply (Hno _ Hvm).
    set (vs' := [mkV (Num [0%Z; 1%Z]) SpNone [-1; -2; 3; 0; 0] 0 1; mkV (Num [0%Z]) SpNone [-1; -2; 0; 0] 0 1]).
    assert (Hv : Forall svar_ok vs') by (constructor; [ok_var; exact I|constructor; [ok_var; exact I|constructor]]).
    assert (Hq : transform_query vs' [XNum (-5); XNum (-5)] = Ok x) by reflexivity.
    destruct (C63_outcome false vs' [XNum (-5); XNum (-5)] x 0 [1; 1] noF [0; 0] [] g1 (OBin true) 1 S Hv) as ((Hr & _) & _); [|exact Hq|discriminate|discriminate|exact Hf|].
    + intros v [<-|[<-|[]]]; right; reflexivity.
    + exact (proj2 (Hr 0%nat (le_n 1))).
Qed.
Print Assumptions C63_special_rows_refuted.

(** Objectives without proximity: nothing ties the score to the chosen bins. If the mean of the training data is of class 1, an optimal
    solution for the objective closeness changes nothing, whatever the query. *)
Lemma rsum_zero {A} (f : A -> R) l : (forall a, In a l -> f a = 0) -> rsum (map f l) = 0.
Proof. induction l as [|a l IH]; intros H; [reflexivity|]. change (f a + rsum (map f l) = 0). rewrite (H a (or_introl eq_refl)), IH; [lra|]. intros b Hb. apply H. now right. Qed.
Lemma rsum_pos {A} (f : A -> R) l : (forall a, In a l -> 0 <= f a) -> 0 <= rsum (map f l).
Proof. induction l as [|a l IH]; intros H; [cbn; lra|]. change (0 <= f a + rsum (map f l)). pose proof (H a (or_introl eq_refl)). assert (0 <= rsum (map f l)) by (apply IH; intros b Hb; apply H; now right). lra. Qed.
Lemma count_repeat n : count_true (repeat false n) = 0%nat.
Proof. induction n; [reflexivity|exact IHn]. Qed.
Lemma select_repeat {A} n (l : list A) : select (repeat false n) l = [].
Proof. revert l; induction n; intros [|a l]; try reflexivity. apply IHn. Qed.
Theorem C63_outcome_without_proximity_refuted G D w : g_prox G = None -> g_close G = Some w -> g_diff G = None -> g_wdivf G = None -> g_wdivv G = None ->
  0 <= w -> (0 <= g_maxch G)%Z -> d_int D + sumn (d_p D) (fun i => nth i (d_coef D) 0 * nth i (d_mu D) 0) >= 1 / 1000000 ->
  exists S, feasible G D (OBin true) 1 S /\ (forall S', feasible G D (OBin true) 1 S' -> weighted_cost G D 1 S <= weighted_cost G D 1 S') /\
    (forall i, shown_feature D (v_z (s_V S 0)) i = Ok Kept) /\ cf_score D (v_z (s_V S 0)) = sumn (d_p D) (fun i => nth i (d_coef D) 0 * xi D i) + d_int D.
Proof.
  intros Hp Hc Hd Hf Hv Hw Hm Ha.
  set (V := {| v_xp := fun i => nth i (d_mu D) 0; v_tp := fun _ => 0; v_tm := fun _ => 0; v_mp := fun _ => 0; v_mm := fun _ => 0; v_a := fun _ => 0%Z;
    v_z := fun i => repeat false (length (cnd D i)); v_qp := 0; v_qm := 0; v_f := 0; v_h := fun _ => 0; v_s := fun _ => false |}).
  exists {| s_V := fun _ => V; s_u := fun _ _ _ => false; s_d := fun _ _ _ => [] |}.
  assert (Hcost : forall S', feasible G D (OBin true) 1 S' -> weighted_cost G D 1 S' >= 0).
  { intros S' (HS & _). unfold weighted_cost, all_names. cbn [map weight_of_obj]. rewrite Hp, Hc, Hd, Hf, Hv. cbn [rsum fold_right obj].
    apply Rle_ge. assert (0 <= sumn 1 (fun k => sumn (d_p D) (fun i => v_mp (s_V S' k) i + v_mm (s_V S' k) i))).
    { apply rsum_pos. intros k Hk. apply in_seq0 in Hk. destruct (HS k Hk) as (_ & Hcl & _). rewrite Hc in Hcl. specialize (Hcl ltac:(discriminate)).
      apply rsum_pos. intros i Hi. apply in_seq0 in Hi. destruct (Hcl i Hi) as (H1 & H2 & _). lra. }
    assert (0 <= w * sumn 1 (fun k => sumn (d_p D) (fun i => v_mp (s_V S' k) i + v_mm (s_V S' k) i))) by now apply Rmult_le_pos. cbn [rsum] in *. unfold rsum. cbn [fold_right]. lra. }
  split; [|split; [|split]].
  - split; [|intros k l Hkl; lia]. intros k Hk. cbn [s_V]. split; [congruence|]. split; [|split].
    + intros _ i Hi. cbn [v_mp v_mm v_xp V]. split; [lra|split; [lra|]]. unfold maha. rewrite rsum_zero; [lra|]. intros j _. lra.
    + split; [|split].
      * intros i Hi. cbn [v_z v_a V]. rewrite repeat_length, count_repeat. split; [reflexivity|split; [reflexivity|lia]].
      * replace (zsum (map (v_a V) (seq 0 (d_p D)))) with 0%Z; [exact Hm|]. cbn [v_a V]. generalize (seq 0 (d_p D)). induction l; [reflexivity|]. cbn [map]. unfold zsum in *. cbn [fold_right]. lia.
      * intros i _. reflexivity.
    + exact Ha.
  - intros S' HS'. apply Hcost in HS'. apply Rle_trans with 0; [|lra]. apply Req_le. unfold weighted_cost, all_names. cbn [map weight_of_obj]. rewrite Hp, Hc, Hd, Hf, Hv.
    cbn [obj s_V v_mp v_mm V]. unfold sumn. rewrite (rsum_zero (fun k => rsum (map (fun i => 0 + 0) (seq 0 (d_p D))))); [unfold rsum; cbn [fold_right]; lra|].
    intros k _. apply rsum_zero. intros; lra.
  - intros i. unfold shown_feature, new_index. cbn [s_V v_z V]. now rewrite select_repeat.
  - unfold cf_score. f_equal. apply rsum_ext. intros i _. f_equal. unfold newx. cbn [s_V v_z V].
    replace (rsum _) with 0; [lra|]. symmetry. generalize (cnd D i). induction l as [|jm l IH]; [reflexivity|]. cbn [length repeat map2 b2r]. unfold rsum in *. cbn [fold_right]. rewrite IH. lra.
Qed.
Print Assumptions C63_outcome_without_proximity_refuted.

(** The explainer scores missing and special values of the query as 0 also if the scorecard does not. metric_missing="empirical", first
    feature missing and not actionable: every counterfactual shows class 1 with probability above 1/2, but the scorecard predicts class 0
    for the sample it describes (linear predictor -3). *)
Definition ve : list svar := [mkV (Num [0%Z]) SpNone [-1; 2; 0; -5] 0 1; mkV (Num [0%Z]) SpNone [-1; 2; 0; 0] 0 1].
Definition g2 : cfparams := {| g_prox := Some 1; g_close := None; g_diff := None; g_wdivf := None; g_wdivv := None; g_min := false; g_max := false;
  g_divf := false; g_divv := false; g_maxch := max_changes 2 None; g_nonact := non_actionable 2 (Some [1%nat]) |}.
Lemma ve_ok : Forall svar_ok ve.
Proof. constructor; [ok_var; exact I|constructor; [ok_var; exact I|constructor]]. Qed.
Theorem C63_prediction_missing_query_refuted :
  let q := [XNaN; XNum (-5)] in let x := [0; -1] in let xs := [XNaN; XNum 5] in let D := make_data false ve x 0 [1; 1] noF [0; 0] [] in
  transform_query ve q = Ok x /\ (exists S, feasible g2 D (OBin true) 1 S) /\
  forall S, feasible g2 D (OBin true) 1 S -> shown_probability D (v_z (s_V S 0)) > 1 / 2 /\ realises ve q xs (found D S 0) /\
    exists l, linear_sum Empirical Empirical ve xs = Ok l /\ l = -3.
Proof.
  intros q x xs D. split; [reflexivity|]. assert (Hp : plain_rows false ve) by (intros v [<-|[<-|[]]]; right; reflexivity). split.
  - eexists. apply (build_feasible false ve x 0 [1; 1] noF [0; 0] [] eq_refl (ok_len _ ve_ok) Hp) with (cs := fun _ i => match i with 1%nat => Some 1%nat | _ => None end).
    + apply request_one.
      * split; [|vm_compute; discriminate]. intros [|[|i]] j E; try discriminate. injection E as <-. split; [intros [H|[]]; discriminate|]. eexists; eexists. split; [reflexivity|split; [reflexivity|]].
        split; [vm_compute; lia|cbn; lra].
      * cbn [outcome_met d_x d_int make_data]. unfold ve. rewrite score2. unfold value_after, x. cbn. lra.
    + intros i [<-|[]]. vm_compute. lia.
    + intros y; discriminate.
  - intros S Hf. destruct (C63_outcome false ve q x 0 [1; 1] noF [0; 0] [] g2 (OBin true) 1 S ve_ok Hp eq_refl) as ((Hr & _) & Hs); [discriminate|discriminate|exact Hf|].
    split; [apply (Hs 0%nat (le_n 1)); reflexivity|]. split.
    + split; [reflexivity|split; [reflexivity|]]. destruct (Hr 0%nat (le_n 1)) as ((Hc & _) & Ho).
      change (1 / 1000000 <= score_after ve x 0 (found D S 0)) in Ho. change (forall i j, found D S 0 i = Some j -> ~ In i (g_nonact g2) /\ exists v a, nth_error ve i = Some v /\ nth_error x i = Some a /\ row_allowed false v a j) in Hc.
      set (c := found D S 0) in *. clearbody c.
      assert (H0 : c 0%nat = None). { destruct (c 0%nat) as [j|] eqn:E; [|reflexivity]. destruct (Hc 0%nat j E) as (Hni & _). exfalso. apply Hni. now left. }
      intros i v a b Ev Ea Eb. destruct i as [|[|i]]; [| |destruct i; discriminate].
      * rewrite H0. injection Ea as <-. injection Eb as <-. reflexivity.
      * injection Ev as <-. injection Ea as <-. injection Eb as <-. unfold ve in Ho. rewrite score2 in Ho. unfold value_after in Ho. rewrite H0 in Ho. cbn [sv_coef sv_metric nth x] in Ho.
        destruct (c 1%nat) as [j|] eqn:E; [|exfalso; unfold x in Ho; cbn in Ho; lra].
        destruct (Hc 1%nat j E) as (_ & v & a & Ev & _ & Hj & _). injection Ev as <-. revert Hj. cbn [n_bins_of sv_bins length]. intros Hj.
        destruct j as [|[|j]]; [exfalso; unfold x in Ho; cbn in Ho; lra| |lia]. right. split; [intros []|]. vm_compute. split; [discriminate|reflexivity].
    + eexists. split; [reflexivity|]. cbn. lra.
Qed.
Print Assumptions C63_prediction_missing_query_refuted.

(** special_missing=True: the missing row is offered with the value of the binning table, which a scorecard fitted with the default
    metric_missing=0 does not use. The counterfactual shows class 1 for a missing value; the scorecard predicts class 0 (predictor -1). *)
Definition vm : list svar := [mkV (Num [0%Z]) SpNone [-1; -2; 0; 5] 0 1; mkV (Num [0%Z]) SpNone [-1; -2; 0; 0] 0 1].
Theorem C63_prediction_missing_row_refuted :
  let q := [XNum (-5); XNum (-5)] in let x := [-1; -1] in let xs := [XNaN; XNum (-5)] in let D := make_data true vm x 0 [1; 1] noF [0; 0] [] in
  transform_query vm q = Ok x /\ (exists S, feasible g1 D (OBin true) 1 S) /\
  exists c, request_met true g1 D vm (OBin true) 1 (fun _ => c) /\ realises vm q xs c /\ score_after vm x 0 c = 4 /\
    exists l, linear_sum (Const true 0) (Const true 0) vm xs = Ok l /\ l = -1.
Proof.
  intros q x xs D. split; [reflexivity|]. assert (Hv : Forall svar_ok vm) by (constructor; [ok_var; exact I|constructor; [ok_var; exact I|constructor]]).
  set (c := fun i => match i with 0%nat => Some 3%nat | _ => None end).
  assert (Es : score_after vm x 0 c = 4). { unfold vm. rewrite score2. unfold value_after, x, c. cbn. lra. }
  assert (Hr : request_met true g1 D vm (OBin true) 1 (fun _ => c)).
  { apply request_one; [|cbn [outcome_met]; change (1 / 1000000 <= score_after vm x 0 c); lra]. split; [|vm_compute; discriminate].
    intros [|i] j E; [|discriminate]. injection E as <-. split; [intros []|]. eexists; eexists. split; [reflexivity|split; [reflexivity|]]. split; [vm_compute; lia|cbn; lra]. }
  split.
  - eexists. apply (build_feasible true vm x 0 [1; 1] noF [0; 0] [] eq_refl (ok_len _ Hv)) with (cs := fun _ => c); [intros v _; now left|exact Hr|intros i []|intros y; discriminate].
  - exists c. split; [exact Hr|split; [|split; [exact Es|eexists; split; [reflexivity|cbn; lra]]]]. split; [reflexivity|split; [reflexivity|]].
    intros i v a b Ev Ea Eb. destruct i as [|[|i]]; [| |destruct i; discriminate]; injection Ev as <-; injection Ea as <-; injection Eb as <-; reflexivity.
Qed.
Print Assumptions C63_prediction_missing_row_refuted.

(** Hypotheses met: two counterfactuals that differ in the features changed; a continuous outcome with a bound. *)
Definition vh : list svar := [mkV (Num [0%Z; 5%Z]) SpNone [-1; 1; 3; 0; 0] 0 1; mkV (Catg [[1%Z]; [2%Z; 3%Z]]) SpNone [-1; 2; 0; 0] 0 2].
Definition g3 : cfparams := {| g_prox := Some 1; g_close := Some (1 / 2); g_diff := Some 1; g_wdivf := None; g_wdivv := Some 1; g_min := true; g_max := false;
  g_divf := true; g_divv := true; g_maxch := max_changes 2 None; g_nonact := non_actionable 2 None |}.
Definition idF : nat -> nat -> R := fun i j => if Nat.eqb i j then 1 else 0.
Lemma vh_ok : Forall svar_ok vh.
Proof.
  constructor; [ok_var; exact I|constructor; [|constructor]]. split; [exact I|split; [reflexivity|]].
  intros i j z (b & Hi & Hz) (b' & Hj & Hz'). destruct i as [|[|i]], j as [|[|j]]; cbn in Hi, Hj; try reflexivity; try (destruct i; discriminate); try (destruct j; discriminate);
  injection Hi as <-; injection Hj as <-; cbn in Hz, Hz'; lia.
Qed.
Example C63_hyps_met : let q := [XNum (-3); XNum 1] in let x := [-1; -1] in let D := make_data false vh x (1 / 2) [1; 1 / 3] idF [0; 0] [] in
  Forall svar_ok vh /\ plain_rows false vh /\ transform_query vh q = Ok x /\ g_prox g3 <> None /\ (exists S, feasible g3 D (OCont 1) 2 S) /\
  request_met false g3 D vh (OCont 1) 2 (fun k i => match k, i with 0%nat, 0%nat => Some 2%nat | 1%nat, 1%nat => Some 1%nat | _, _ => None end).
Proof.
  intros q x D. assert (Hp : plain_rows false vh) by (intros v [<-|[<-|[]]]; right; reflexivity).
  set (cs := fun k i => match k, i with 0%nat, 0%nat => Some 2%nat | 1%nat, 1%nat => Some 1%nat | _, _ => None end).
  assert (Hr : request_met false g3 D vh (OCont 1) 2 cs).
  { split.
    - intros [|[|k]] Hk; [| |lia].
      + split; [split; [|vm_compute; discriminate]|].
        * intros [|i] j E; [|discriminate]. injection E as <-. split; [intros []|]. eexists; eexists. split; [reflexivity|split; [reflexivity|]]. split; [vm_compute; lia|cbn; lra].
        * split; [intros _|discriminate]. change (1 <= score_after vh x (1 / 2) (cs 0%nat)). unfold vh. rewrite score2. unfold value_after, x. cbn. lra.
      + split; [split; [|vm_compute; discriminate]|].
        * intros [|[|i]] j E; [discriminate| |discriminate]. injection E as <-. split; [intros []|]. eexists; eexists. split; [reflexivity|split; [reflexivity|]]. split; [vm_compute; lia|cbn; lra].
        * split; [intros _|discriminate]. change (1 <= score_after vh x (1 / 2) (cs 1%nat)). unfold vh. rewrite score2. unfold value_after, x. cbn. lra.
    - intros [|k] [|[|l]] Hkl; try lia. split; intros _.
      + exists 0%nat. split; [vm_compute; lia|]. vm_compute. discriminate.
      + intros [|[|i]] j j' Hi Ej Ej'; [discriminate|discriminate|discriminate]. }
  split; [exact vh_ok|split; [exact Hp|split; [reflexivity|split; [discriminate|split; [|exact Hr]]]]].
  eexists. apply (build_feasible false vh x (1 / 2) [1; 1 / 3] idF [0; 0] [] eq_refl (ok_len _ vh_ok) Hp) with (cs := cs); [exact Hr|intros i []|intros y; discriminate].
Qed.
