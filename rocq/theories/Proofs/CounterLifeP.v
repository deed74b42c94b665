(** Call histories of the Counterfactual object; the checks of a request. *)
From Coq Require Import List ZArith Bool Arith Reals Lra Lia.
From Verif Require Import Model.Arr Model.Core Model.Scorecard Model.Process Model.Counterfactual Model.CounterLife
  Spec.ScoreSpec Spec.CounterfactualSpec Spec.CounterLifeSpec.
Import ListNotations.
Open Scope R_scope.

(** ** Histories *)
Lemma rev_case {A} (l : list A) : l = [] \/ exists l' x, l = l' ++ [x].
Proof. destruct l using rev_ind; [left; reflexivity|right; eauto]. Qed.
Lemma crun_app u ops1 : forall w ops2, crun u w (ops1 ++ ops2) =
  let (w1, e1) := crun u w ops1 in let (w2, e2) := crun u w1 ops2 in (w2, e1 ++ e2).
Proof.
  induction ops1 as [|o l IH]; intros w ops2; cbn [crun app]; [destruct (crun u w ops2); reflexivity|].
  destruct (cstep u w o) as [w1 e]. rewrite IH. destruct (crun u w1 l) as [w2 e2]. destruct (crun u w2 ops2). reflexivity.
Qed.
Lemma crun_length u ops : forall w, length (snd (crun u w ops)) = length ops.
Proof. induction ops as [|o l IH]; intros w; cbn [crun]; [reflexivity|]. destruct (cstep u w o) as [w1 e]. specialize (IH w1). destruct (crun u w1 l). cbn in *. lia. Qed.
Lemma crun_snoc u w ops o : fst (crun u w (ops ++ [o])) = fst (cstep u (fst (crun u w ops)) o) /\
  trace u w (ops ++ [o]) = trace u w ops ++ [(o, snd (cstep u (fst (crun u w ops)) o))].
Proof.
  unfold trace. rewrite crun_app. pose proof (crun_length u ops w) as L. destruct (crun u w ops) as [w1 e1]. cbn [crun fst snd] in *. destruct (cstep u w1 o) as [w2 e]. cbn [fst snd].
  split; [reflexivity|]. revert e1 L. induction ops as [|a l IH]; intros [|b e1] L; cbn in *; try lia; [reflexivity|]. f_equal. apply IH. lia.
Qed.

Definition inv (s : cstate) : Prop :=
  (cs_fitted s = true -> exists names P, cs_names s = Some names /\ cs_prob s = Some P) /\
  (cs_generated s = true -> cs_fitted s = true /\ exists st, cs_status s = Some st).
Lemma inv_step u w o : inv (w_s w) -> inv (w_s (fst (cstep u w o))).
Proof.
  intros [H1 H2]. destruct o as [X|r a|b|c]; cbn [cstep]; [| |split; assumption|split; assumption].
  - unfold cf_fit. destruct (k_fitted (w_card w)); cbn [negb]; [|split; assumption].
    assert (A : inv (mkC (Some (k_names (w_card w))) (cs_prob (w_s w)) (cs_cfs (w_s w)) (cs_status (w_s w)) (cs_fitted (w_s w)) (cs_generated (w_s w)))).
    { split; cbn; [|exact H2]. intros F. destruct (H1 F) as (n & P & _ & E). eauto. }
    destruct (forallb _ _); cbn [negb fst w_s]; [|exact A]. destruct (u_math u (w_card w) X) as [d|e]; cbn [fst w_s]; [|exact A].
    split; cbn; [eauto|discriminate].
  - unfold cf_generate. destruct (posed (w_card w) (w_sm w) (w_s w) r) as [[G D]|e] eqn:E; [|split; assumption].
    assert (F : cs_fitted (w_s w) = true) by (unfold posed in E; destruct (cs_fitted (w_s w)); [reflexivity|discriminate E]).
    destruct a as [|st z]; [split; assumption|].
    assert (A : inv (mkC (cs_names (w_s w)) (cs_prob (w_s w)) (cs_cfs (w_s w)) (Some st) (cs_fitted (w_s w)) (cs_generated (w_s w)))).
    { split; cbn; [exact H1|]. intros Gn. split; [exact F|eauto]. }
    destruct (has_solution st); [destruct (rectangular D); [exact A|]; destruct (entries _ r D _) as [l|e]; [|exact A]|];
      cbn [fst w_s]; (split; cbn; [exact H1|intros _; split; [exact F|eauto]]).
Qed.
Lemma inv_run u c sm ops : inv (w_s (fst (crun u (new_cf c sm) ops))).
Proof.
  induction ops as [|o l IH] using rev_ind; [split; cbn; discriminate|]. rewrite (proj1 (crun_snoc u (new_cf c sm) l o)). now apply inv_step.
Qed.
Lemma fit_result u c X s s' e : cf_fit u c X s = (s', e) ->
  (e = COk tt /\ cs_fitted s' = true /\ cs_generated s' = false) \/
  (e <> COk tt /\ cs_fitted s' = cs_fitted s /\ cs_generated s' = cs_generated s /\ cs_cfs s' = cs_cfs s /\ cs_status s' = cs_status s /\ cs_prob s' = cs_prob s).
Proof.
  unfold cf_fit. intros H. repeat match type of H with context [if ?b then _ else _] => destruct b end; try (injection H as <- <-; right; cbn; repeat split; discriminate).
  destruct (u_math u c X); injection H as <- <-; [left; cbn; auto|right; cbn; repeat split; discriminate].
Qed.
Lemma generate_result c sm s r a s' e : cf_generate c sm s r a = (s', e) ->
  (e = COk tt /\ cs_fitted s = true /\ cs_generated s' = true) \/
  (e <> COk tt /\ cs_generated s' = cs_generated s /\ cs_cfs s' = cs_cfs s).
Proof.
  unfold cf_generate. intros H. destruct (posed c sm s r) as [[G D]|x] eqn:E; [|injection H as <- <-; right; repeat split; discriminate].
  assert (F : cs_fitted s = true) by (unfold posed in E; destruct (cs_fitted s); [reflexivity|discriminate E]).
  destruct a as [|st z]; [injection H as <- <-; right; repeat split; discriminate|].
  destruct (has_solution st); [destruct (rectangular D)|]; [injection H as <- <-; right; cbn; repeat split; discriminate| |injection H as <- <-; left; auto].
  destruct (entries _ r D _); injection H as <- <-; [left; auto|right; cbn; repeat split; discriminate].
Qed.
Lemma generate_keeps c sm s r a s' e : cf_generate c sm s r a = (s', e) -> cs_fitted s' = cs_fitted s /\ cs_names s' = cs_names s /\ cs_prob s' = cs_prob s.
Proof.
  unfold cf_generate. intros H. destruct (posed c sm s r) as [[G D]|x]; [|injection H as <- <-; auto]. destruct a as [|st z]; [injection H as <- <-; auto|].
  destruct (has_solution st); [destruct (rectangular D)|]; [injection H as <- <-; auto| |injection H as <- <-; auto]. destruct (entries _ r D _); injection H as <- <-; auto.
Qed.
Lemma flags_trace u c sm ops : let s := w_s (fst (crun u (new_cf c sm) ops)) in let tr := trace u (new_cf c sm) ops in
  (cs_fitted s = true <-> exists e, In e tr /\ fit_ok e) /\ (cs_generated s = true <-> generated_since_fit tr).
Proof.
  cbv zeta. induction ops as [|o l IH] using rev_ind.
  - cbn. split; split; try discriminate; [intros (e & [] & _)|intros (pre & e & post & E & _); destruct pre; discriminate E].
  - destruct (crun_snoc u (new_cf c sm) l o) as [Ew Et]. rewrite Ew, Et. set (w := fst (crun u (new_cf c sm) l)) in *. set (tr := trace u (new_cf c sm) l) in *. destruct IH as [IH1 IH2].
    assert (Keep : forall e, ~ fit_ok (o, e) -> ~ generate_ok (o, e) ->
      ((exists x, In x (tr ++ [(o, e)]) /\ fit_ok x) <-> exists x, In x tr /\ fit_ok x) /\ (generated_since_fit (tr ++ [(o, e)]) <-> generated_since_fit tr)).
    { intros e N1 N2. split; split.
      - intros (x & I & F). apply in_app_or in I as [I|[<-|[]]]; [eauto|contradiction].
      - intros (x & I & F). exists x. split; [apply in_or_app; auto|exact F].
      - intros (pre & x & post & E & Gx & N). destruct (rev_case post) as [->|(post' & y & ->)] eqn:Z; clear Z.
        + apply app_inj_tail in E as [_ <-]. contradiction.
        + rewrite app_comm_cons, app_assoc in E. apply app_inj_tail in E as [E <-]. exists pre, x, post'. split; [exact E|]. split; [exact Gx|]. intros e' I. apply N, in_or_app. auto.
      - intros (pre & x & post & E & Gx & N). exists pre, x, (post ++ [(o, e)]). split; [rewrite E, <- app_assoc; reflexivity|]. split; [exact Gx|].
        intros e' I. apply in_app_or in I as [I|[<-|[]]]; [now apply N|exact N1]. }
    destruct o as [X|r a|b|k]; cbn [cstep].
    + destruct (cf_fit u (w_card w) X (w_s w)) as [s' e] eqn:E. cbn [fst snd w_s]. apply fit_result in E as [(-> & E1 & E2)|(N & E1 & E2 & _)].
      * rewrite E1, E2. split; split; try discriminate.
        -- intros _. exists (Fit X, COk tt). split; [apply in_or_app; right; left; reflexivity|now exists X].
        -- reflexivity.
        -- intros (pre & x & post & E & Gx & Nf). destruct (rev_case post) as [->|(post' & y & ->)] eqn:Z; clear Z.
           ++ apply app_inj_tail in E as [_ <-]. destruct Gx as (? & ? & Ex). discriminate Ex.
           ++ rewrite app_comm_cons, app_assoc in E. apply app_inj_tail in E as [_ <-]. exfalso. apply (Nf (Fit X, COk tt)); [apply in_or_app; right; left; reflexivity|now exists X].
      * rewrite E1, E2. destruct (Keep e) as [K1 K2]; [intros (Y & Ey); injection Ey as <- ->; now apply N|intros (? & ? & Ey); discriminate Ey|]. rewrite K1, K2. auto.
    + destruct (cf_generate (w_card w) (w_sm w) (w_s w) r a) as [s' e] eqn:E. cbn [fst snd w_s]. pose proof (generate_keeps _ _ _ _ _ _ _ E) as (E0 & _). apply generate_result in E as [(-> & E1 & E2)|(N & E1 & E2)].
      * rewrite E0, E2, E1. split; split; try reflexivity.
        -- intros _. apply IH1 in E1 as (x & I & F). exists x. split; [apply in_or_app; auto|exact F].
        -- intros _. exists tr, (Generate r a, COk tt), []. split; [reflexivity|]. split; [now exists r, a|intros e' []].
      * rewrite E0, E1. destruct (Keep e) as [K1 K2]; [intros (Y & Ey); discriminate Ey|intros (? & ? & Ey); injection Ey as <- <- ->; now apply N|]. rewrite K1, K2. auto.
    + cbn [fst snd w_s]. destruct (Keep (COk tt)) as [K1 K2]; [intros (Y & Ey); discriminate Ey|intros (? & ? & Ey); discriminate Ey|]. rewrite K1, K2. auto.
    + cbn [fst snd w_s]. destruct (Keep (COk tt)) as [K1 K2]; [intros (Y & Ey); discriminate Ey|intros (? & ? & Ey); discriminate Ey|]. rewrite K1, K2. auto.
Qed.

(** ** What can be observed after a fit does not depend on what came before *)
Definition alike (w w' : cworld) : Prop :=
  w_card w = w_card w' /\ w_sm w = w_sm w' /\ cs_names (w_s w) = cs_names (w_s w') /\ cs_prob (w_s w) = cs_prob (w_s w') /\
  cs_fitted (w_s w) = cs_fitted (w_s w') /\ cs_generated (w_s w) = cs_generated (w_s w') /\
  (cs_generated (w_s w) = true -> cs_cfs (w_s w) = cs_cfs (w_s w') /\ cs_status (w_s w) = cs_status (w_s w')).
Lemma alike_step u w w' o : alike w w' -> alike (fst (cstep u w o)) (fst (cstep u w' o)) /\ snd (cstep u w o) = snd (cstep u w' o).
Proof.
  destruct w as [c sm s], w' as [c' sm' s']. unfold alike. cbn [w_card w_sm w_s]. intros (<- & <- & N & P & F & Gn & H).
  destruct s as [n p cf st f g], s' as [n' p' cf' st' f' g']. cbn [cs_names cs_prob cs_fitted cs_generated cs_cfs cs_status] in *. subst n' p' f' g'.
  destruct o as [X|r a|b|k]; cbn [cstep w_card w_sm w_s].
  - unfold cf_fit. cbn [cs_names cs_prob cs_fitted cs_generated cs_cfs cs_status]. destruct (k_fitted c); cbn [negb]; [|cbn; tauto]. destruct (forallb _ _); cbn [negb]; [|cbn; tauto].
    destruct (u_math u c X); cbn; [|tauto]. intuition discriminate.
  - unfold cf_generate. replace (posed c sm (mkC n p cf' st' f g) r) with (posed c sm (mkC n p cf st f g) r) by reflexivity.
    destruct (posed c sm (mkC n p cf st f g) r) as [[G D]|x]; [|cbn; tauto]. destruct a as [|s z]; [cbn; tauto|]. cbn [cs_names cs_prob cs_fitted cs_generated cs_cfs cs_status].
    destruct (has_solution s); [destruct (rectangular D)|]; [cbn; tauto| |cbn; tauto]. destruct (entries _ r D _); cbn; tauto.
  - cbn. tauto.
  - cbn. tauto.
Qed.
Lemma alike_run u ops : forall w w', alike w w' -> alike (fst (crun u w ops)) (fst (crun u w' ops)) /\ snd (crun u w ops) = snd (crun u w' ops).
Proof.
  induction ops as [|o l IH]; intros w w' H; cbn [crun]; [auto|]. destruct (alike_step u w w' o H) as [A B].
  destruct (cstep u w o) as [w1 e], (cstep u w' o) as [w1' e']. cbn [fst snd] in *. subst e'. destruct (IH w1 w1' A) as [C E].
  destruct (crun u w1 l), (crun u w1' l). cbn [fst snd] in *. subst. auto.
Qed.
Lemma alike_reads w w' : alike w w' -> (forall b1 b2, cf_display (w_s w) b1 b2 = cf_display (w_s w') b1 b2) /\ cf_status (w_s w) = cf_status (w_s w').
Proof.
  intros (_ & _ & _ & _ & _ & Gn & H). unfold cf_display, cf_status. rewrite <- Gn. destruct (cs_generated (w_s w)); cbn [negb]; [|auto]. destruct (H eq_refl) as [-> ->]. auto.
Qed.
Lemma fit_alike u c sm s s' X : snd (cstep u (mkW c sm s) (Fit X)) = COk tt ->
  snd (cstep u (mkW c sm s') (Fit X)) = COk tt /\ alike (fst (cstep u (mkW c sm s) (Fit X))) (fst (cstep u (mkW c sm s') (Fit X))).
Proof.
  cbn [cstep w_card w_s]. unfold cf_fit. destruct (k_fitted c); cbn [negb]; [|discriminate]. destruct (forallb _ _); cbn [negb]; [|discriminate].
  destruct (u_math u c X); cbn; [|discriminate]. intros _. unfold alike; cbn. intuition discriminate.
Qed.

(** ** The object holds the data of the scorecard of today *)
Definition in_step (u : outside) (w : cworld) : Prop := exists X d, u_math u (w_card w) X = Ok d /\ cs_fitted (w_s w) = true /\ cs_names (w_s w) = Some (k_names (w_card w)) /\
  cs_prob (w_s w) = Some (mkPr (k_int (w_card w)) (map sv_coef (k_vars (w_card w))) d).
Lemma in_step_step u w o : in_step u w -> (forall c, o <> RefitScorecard c) -> in_step u (fst (cstep u w o)).
Proof.
  intros (X0 & d & M & F & N & P) H. destruct o as [X|r a|b|k]; cbn [cstep].
  - unfold cf_fit. destruct (k_fitted (w_card w)); cbn [negb]; [|exists X0, d; auto]. destruct (forallb _ _); cbn [negb]; [|exists X0, d; cbn; auto].
    destruct (u_math u (w_card w) X) as [d'|] eqn:E; cbn [fst]; [exists X, d'; cbn; auto|exists X0, d; cbn; auto].
  - destruct (cf_generate (w_card w) (w_sm w) (w_s w) r a) as [s' e] eqn:E. apply generate_keeps in E as (E1 & E2 & E3). exists X0, d. cbn [fst w_s w_card]. rewrite E1, E2, E3. auto.
  - exists X0, d. cbn. auto.
  - exfalso. now apply (H k).
Qed.
Lemma in_step_run u w ops : fitted_to_card w ops -> in_step u (fst (crun u w ops)).
Proof.
  intros (pre & X & post & -> & E & N). rewrite crun_app. destruct (crun u w pre) as [w1 e1]. cbn [fst] in E. cbn [crun].
  assert (I : in_step u (fst (cstep u w1 (Fit X)))).
  { revert E. cbn [cstep]. unfold cf_fit. destruct (k_fitted (w_card w1)); cbn [negb]; [|discriminate]. destruct (forallb _ _); cbn [negb]; [|discriminate].
    destruct (u_math u (w_card w1) X) as [d|] eqn:Ed; [|discriminate]. intros _. exists X, d. cbn. auto. }
  destruct (cstep u w1 (Fit X)) as [w2 e]. cbn [fst] in I. clear E. revert w2 I N. induction post as [|o l IH]; intros w2 I N; cbn [crun].
  - exact I.
  - pose proof (in_step_step u w2 o I ltac:(intros c ->; apply (N c); left; reflexivity)) as I'. destruct (cstep u w2 o) as [w3 e3]. cbn [fst] in I'.
    specialize (IH w3 I' ltac:(intros c Hc; apply (N c); right; exact Hc)). destruct (crun u w3 l). exact IH.
Qed.

(** ** Requests *)
Lemma reqb_iff a b : reqb a b = true <-> a = b.
Proof. unfold reqb. destruct (Req_EM_T a b); split; congruence. Qed.
Lemma rleb_iff a b : rleb a b = true <-> a <= b.
Proof. unfold rleb. destruct (Rle_dec a b); split; try congruence; tauto. Qed.
Lemma nrleb_iff a b : negb (rleb a b) = true <-> b < a.
Proof. unfold rleb. destruct (Rle_dec a b); cbn; split; intros; try congruence; lra. Qed.
Lemma cname_iff a b : consname_eqb a b = true <-> a = b.
Proof. destruct a, b; cbn; split; congruence. Qed.
Lemma cmem_iff c l : cmem c l = true <-> In c l.
Proof. unfold cmem. rewrite existsb_exists. split; [intros (x & I & E); apply cname_iff in E; subst; exact I|intros I; exists c; split; [exact I|now apply cname_iff]]. Qed.
Lemma distinct_iff l : distinct l = true <-> NoDup l.
Proof.
  induction l as [|c l IH]; cbn [distinct]; [split; [constructor|reflexivity]|]. rewrite andb_true_iff, IH. split.
  - intros [H1 H2]. constructor; [|exact H2]. intros I. apply cmem_iff in I. rewrite I in H1. discriminate.
  - intros H. inversion H; subst. split; [|assumption]. destruct (cmem c l) eqn:E; [|reflexivity]. apply cmem_iff in E. contradiction.
Qed.
Lemma zmem_in v l : zmem v l = true <-> In v l.
Proof. unfold zmem. rewrite existsb_exists. split; [intros (x & I & E); apply Z.eqb_eq in E; now subst|intros I; exists v; split; [exact I|apply Z.eqb_refl]]. Qed.
Definition obj_check (r : request) : Prop := forall l, r_obj r = Some l -> l <> [] /\ forall n w, In (n, w) l -> n <> OInvalid /\ 0 < w.
Lemma constraints_iff r : check_constraints r = true <->
  r_method r <> None /\ obj_check r /\
  (forall l, r_hard r = Some l -> NoDup l /\ forall c, In c l -> In c (hard_names (r_type r))) /\
  (forall l c w, r_soft r = Some l -> In (c, w) l -> 0 < w /\ In c (soft_names (r_type r))) /\
  (r_type r <> TBinary -> (exists l c, r_hard r = Some l /\ In c l /\ In c [CMin; CMax; CDiff]) \/ exists l c w, r_soft r = Some l /\ In (c, w) l /\ In c [CMin; CMax; CDiff]).
Proof.
  unfold check_constraints. rewrite !andb_true_iff.
  assert (A1 : negb (is_none (r_method r)) = true <-> r_method r <> None) by (destruct (r_method r); cbn; split; congruence).
  assert (A2 : match r_obj r with None => true | Some l => negb (Nat.eqb (length l) 0) && forallb (fun e => negb (objname_eqb (fst e) OInvalid) && negb (rleb (snd e) 0)) l end = true <-> obj_check r).
  { unfold obj_check. destruct (r_obj r) as [l|]; [|split; [intros _ l E; discriminate|reflexivity]]. rewrite andb_true_iff, forallb_forall. split.
    - intros [L H] l' E. injection E as <-. split; [intros ->; discriminate L|]. intros n w I. specialize (H _ I). cbn [fst snd] in H. apply andb_true_iff in H as [H1 H2]. apply nrleb_iff in H2. split; [|exact H2]. intros ->. discriminate H1.
    - intros H. destruct (H l eq_refl) as [L H']. split; [destruct l; [congruence|reflexivity]|]. intros [n w] I. destruct (H' n w I) as [N W]. cbn [fst snd]. apply andb_true_iff. split; [destruct n; cbn; congruence|now apply nrleb_iff]. }
  assert (A3 : match r_hard r with None => true | Some l => distinct l && forallb (fun c => cmem c (hard_names (r_type r))) l end = true <->
    forall l, r_hard r = Some l -> NoDup l /\ forall c, In c l -> In c (hard_names (r_type r))).
  { destruct (r_hard r) as [l|]; [|split; [intros _ l E; discriminate|reflexivity]]. rewrite andb_true_iff, forallb_forall, distinct_iff. split.
    - intros [L H] l' E. injection E as <-. split; [exact L|]. intros c I. now apply cmem_iff, H.
    - intros H. destruct (H l eq_refl) as [L H']. split; [exact L|]. intros c I. now apply cmem_iff, H'. }
  assert (A4 : match r_soft r with None => true | Some l => forallb (fun e => cmem (fst e) (soft_names (r_type r)) && negb (rleb (snd e) 0)) l end = true <->
    forall l c w, r_soft r = Some l -> In (c, w) l -> 0 < w /\ In c (soft_names (r_type r))).
  { destruct (r_soft r) as [l|]; [|split; [intros _ l c w E; discriminate|reflexivity]]. rewrite forallb_forall. split.
    - intros H l' c w E I. injection E as <-. specialize (H _ I). cbn [fst snd] in H. apply andb_true_iff in H as [H1 H2]. apply nrleb_iff in H2. now apply cmem_iff in H1.
    - intros H [c w] I. destruct (H l c w eq_refl I) as [W N]. cbn [fst snd]. apply andb_true_iff. split; [now apply cmem_iff|now apply nrleb_iff]. }
  assert (A5 : match r_type r with TBinary => true | _ => negb (is_none (r_hard r) && is_none (r_soft r)) && existsb (fun c => cmem c [CMin; CMax; CDiff]) (optlist (r_hard r) ++ map fst (optlist (r_soft r))) end = true <->
    (r_type r <> TBinary -> (exists l c, r_hard r = Some l /\ In c l /\ In c [CMin; CMax; CDiff]) \/ exists l c w, r_soft r = Some l /\ In (c, w) l /\ In c [CMin; CMax; CDiff])).
  { assert (B : negb (is_none (r_hard r) && is_none (r_soft r)) && existsb (fun c => cmem c [CMin; CMax; CDiff]) (optlist (r_hard r) ++ map fst (optlist (r_soft r))) = true <->
      ((exists l c, r_hard r = Some l /\ In c l /\ In c [CMin; CMax; CDiff]) \/ exists l c w, r_soft r = Some l /\ In (c, w) l /\ In c [CMin; CMax; CDiff])).
    { rewrite andb_true_iff, existsb_exists. split.
      - intros (_ & c & I & M). apply cmem_iff in M. apply in_app_or in I as [I|I].
        + left. destruct (r_hard r) as [l|]; [|destruct I]. exists l, c. split; [reflexivity|]. split; [exact I|exact M].
        + right. destruct (r_soft r) as [l|]; [|destruct I]. apply in_map_iff in I as ([c' w] & E & I). cbn in E. subst c'. exists l, c, w. split; [reflexivity|]. split; [exact I|exact M].
      - intros [(l & c & E & I & M)|(l & c & w & E & I & M)]; rewrite E; cbn [is_none optlist].
        + split; [reflexivity|]. exists c. split; [apply in_or_app; auto|now apply cmem_iff].
        + rewrite andb_false_r. split; [reflexivity|]. exists c. split; [apply in_or_app; right; apply in_map_iff; now exists (c, w)|now apply cmem_iff]. }
    destruct (r_type r); [split; [intros _ N; now destruct N|reflexivity]| | |]; (rewrite B; split; [auto|intros H; apply H; discriminate]). }
  rewrite A1, A2, A3, A4, A5. tauto.
Qed.
Lemma check_iff c names r : check_request c names r = true <-> acceptable (k_binary c) names r.
Proof.
  unfold check_request. rewrite !andb_true_iff, constraints_iff, nrleb_iff, !rleb_iff, Z.ltb_lt.
  assert (T : (if k_binary c then match r_type r with TBinary => reqb (r_y r) 0 || reqb (r_y r) 1 | TProbability => rleb 0 (r_y r) && rleb (r_y r) 1 | _ => false end
     else match r_type r with TContinuous => true | _ => false end) = true <->
    (k_binary c = true -> (r_type r = TBinary /\ (r_y r = 0 \/ r_y r = 1)) \/ (r_type r = TProbability /\ 0 <= r_y r <= 1)) /\ (k_binary c = false -> r_type r = TContinuous)).
  { destruct (k_binary c), (r_type r); rewrite ?orb_true_iff, ?andb_true_iff, ?reqb_iff, ?rleb_iff; split; try discriminate.
    all: try (intros H; split; [intros _|discriminate]; tauto).
    all: try (intros [H _]; destruct (H eq_refl) as [[? ?]|[? ?]]; try discriminate; assumption).
    all: try (intros [_ H]; specialize (H eq_refl); discriminate).
    all: try (intros _; split; [discriminate|reflexivity]).
    all: reflexivity. }
  assert (M : match r_maxch r with None => true | Some m => (0 <? m)%Z end = true <-> forall m, r_maxch r = Some m -> (0 < m)%Z).
  { destruct (r_maxch r) as [m|]; [rewrite Z.ltb_lt; split; [intros H m' E; congruence|auto]|split; [discriminate|reflexivity]]. }
  assert (A : match r_act r with None => true | Some l => forallb (fun v => zmem v names) l end = true <-> forall l v, r_act r = Some l -> In v l -> In v names).
  { destruct (r_act r) as [l|]; [|split; [discriminate|reflexivity]]. rewrite forallb_forall. split.
    - intros H l' v E I. injection E as <-. now apply zmem_in, H.
    - intros H v I. apply zmem_in. now apply (H l v). }
  rewrite T, M, A. clear T M A.
  assert (HH : (forall l, r_hard r = Some l -> NoDup l /\ forall c, In c l -> In c (hard_names (r_type r))) <->
    (forall l, r_hard r = Some l -> NoDup l /\ forall c, In c l -> c = CDivF \/ c = CDivV \/ ((c = CMin \/ c = CMax) /\ r_type r <> TBinary))).
  { assert (Q : forall k, In k (hard_names (r_type r)) <-> k = CDivF \/ k = CDivV \/ ((k = CMin \/ k = CMax) /\ r_type r <> TBinary)).
    { intros k. destruct (r_type r); cbn; intuition (subst; auto; congruence). }
    split; intros H l E; destruct (H l E) as [N I]; (split; [exact N|]); intros k Hk; apply Q; auto. }
  assert (HS : (forall l c w, r_soft r = Some l -> In (c, w) l -> 0 < w /\ In c (soft_names (r_type r))) <->
    (forall l c w, r_soft r = Some l -> In (c, w) l -> 0 < w /\ (c = CDivF \/ c = CDivV \/ (c = CDiff /\ r_type r <> TBinary)))).
  { assert (Q : forall k, In k (soft_names (r_type r)) <-> k = CDivF \/ k = CDivV \/ (k = CDiff /\ r_type r <> TBinary)).
    { intros k. destruct (r_type r); cbn; intuition (subst; auto; congruence). }
    split; intros H l k w E I; destruct (H l k w E I) as [N J]; (split; [exact N|]); apply Q; auto. }
  rewrite HH, HS. split.
  - intros (((((((T1 & T2) & N) & M) & A) & (Me & O & H & S & X)) & Tl) & Tm). constructor; auto.
    intros Nb. destruct (X Nb) as [(l & k & E & I & J)|(l & k & w & E & I & J)].
    + left. exists l. split; [exact E|]. destruct (H l E) as [_ H']. destruct J as [<-|[<-|[<-|[]]]]; auto. destruct (H' _ I) as [?|[?|[[?|?] _]]]; discriminate.
    + right. exists l, w. split; [exact E|]. destruct (S l k w E I) as [_ S']. destruct J as [<-|[<-|[<-|[]]]]; [| |exact I]; destruct S' as [?|[?|[? _]]]; discriminate.
  - intros [T1 T2 N M A Me O H S X Tl Tm]. split; [split; [split; [split; [split; [split; [split; [exact T1|exact T2]|exact N]|exact M]|exact A]|]|exact Tl]|exact Tm].
    split; [exact Me|]. split; [exact O|]. split; [exact H|]. split; [exact S|].
    intros Nb. destruct (X Nb) as [(l & E & [I|I])|(l & w & E & I)].
    + left. exists l, CMin. cbn. auto.
    + left. exists l, CMax. cbn. auto.
    + right. exists l, CDiff, w. cbn. auto 10.
Qed.
