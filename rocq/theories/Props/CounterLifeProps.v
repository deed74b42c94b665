(** The Counterfactual object (C78). A history: the calls fit, generate and the changes of the scorecard it was made for, from a new object;
    [Generate r a]: generate with request [r], to which the solver answers [a]. *)
From Coq Require Import List ZArith Bool Arith Reals Lra Lia.
From Verif Require Import Model.Arr Model.Core Model.Cat Model.Metrics Model.Scorecard Model.Process Model.Counterfactual Model.CounterLife
  Spec.CoreSpec Spec.CatSpec Spec.ScoreSpec Spec.CounterfactualSpec Spec.CounterLifeSpec
  Proofs.CounterR Proofs.CounterS Props.CounterfactualProps Proofs.CounterLifeP Proofs.CounterLifeQ.
Import ListNotations.
Open Scope R_scope.

(** generate raises NotFittedError until a fit has succeeded; display and status raise NotGenerated exactly when no generate has succeeded
    since the last successful fit; otherwise status has a value. *)
Theorem C78_call_order u c sm ops : let w := fst (crun u (new_cf c sm) ops) in let tr := trace u (new_cf c sm) ops in
  (forall r a, (forall e, In e tr -> ~ fit_ok e) -> cstep u w (Generate r a) = (w, CErr (Raise NotFitted))) /\
  (cf_status (w_s w) = CErr NotGenerated <-> ~ generated_since_fit tr) /\
  (forall only outc, cf_display (w_s w) only outc = CErr NotGenerated <-> ~ generated_since_fit tr) /\
  (generated_since_fit tr -> exists st, cf_status (w_s w) = COk (Some st)).
Proof.
  intros w tr. destruct (flags_trace u c sm ops) as [F G]. destruct (inv_run u c sm ops) as [_ I]. fold w in F, G, I. fold tr in F, G.
  assert (Gn : cs_generated (w_s w) = false <-> ~ generated_since_fit tr).
  { rewrite <- G. destruct (cs_generated (w_s w)); split; congruence. }
  split; [|split; [|split]].
  - intros r a H. cbn [cstep]. unfold cf_generate, posed. destruct (cs_fitted (w_s w)) eqn:E.
    + exfalso. destruct (proj1 F eq_refl) as (e & I1 & I2). now apply (H e).
    + cbn [negb]. destruct w. reflexivity.
  - rewrite <- Gn. unfold cf_status. destruct (cs_generated (w_s w)); cbn; split; congruence.
  - intros only outc. rewrite <- Gn. unfold cf_display. destruct (cs_generated (w_s w)); cbn; split; try congruence. destruct (cs_cfs (w_s w)) as [[|]|]; discriminate.
  - intros H. apply G in H. destruct (I H) as (_ & st & E). exists st. unfold cf_status. rewrite H, E. reflexivity.
Qed.
Print Assumptions C78_call_order.

(** A call that raises leaves what display shows unchanged; a fit that raises leaves status unchanged, too. *)
Theorem C78_failed_calls_keep_answers u w o : snd (cstep u w o) <> COk tt -> let w' := fst (cstep u w o) in
  (forall only outc, cf_display (w_s w') only outc = cf_display (w_s w) only outc) /\
  ((exists X, o = Fit X) -> cf_status (w_s w') = cf_status (w_s w)).
Proof.
  intros H w'. unfold w'. clear w'. destruct o as [X|r a|b|k]; cbn [cstep] in *; try (cbn in H; congruence).
  - destruct (cf_fit u (w_card w) X (w_s w)) as [s e] eqn:E. cbn [snd fst w_s] in *. apply fit_result in E as [(-> & _)|(_ & _ & E2 & E3 & E4 & _)]; [congruence|].
    unfold cf_display, cf_status. rewrite E2, E3, E4. auto.
  - destruct (cf_generate _ _ (w_s w) r a) as [s e] eqn:E. cbn [snd fst w_s] in *. apply generate_result in E as [(-> & _)|(_ & E2 & E3)]; [congruence|].
    unfold cf_display. rewrite E2, E3. split; [reflexivity|]. intros (X & Hx). discriminate Hx.
Qed.
Print Assumptions C78_failed_calls_keep_answers.

(** fit starts afresh: after a successful fit, every later call and everything read depends on the scorecard and the data only, not on
    what was done with the object before. *)
Theorem C78_fit_forgets_history u c1 sm1 ops1 c2 sm2 ops2 X ops :
  let w1 := fst (crun u (new_cf c1 sm1) ops1) in let w2 := fst (crun u (new_cf c2 sm2) ops2) in
  w_card w1 = w_card w2 -> w_sm w1 = w_sm w2 -> snd (cstep u w1 (Fit X)) = COk tt ->
  let r1 := crun u (fst (cstep u w1 (Fit X))) ops in let r2 := crun u (fst (cstep u w2 (Fit X))) ops in
  snd (cstep u w2 (Fit X)) = COk tt /\ snd r1 = snd r2 /\ cf_status (w_s (fst r1)) = cf_status (w_s (fst r2)) /\
  forall only outc, cf_display (w_s (fst r1)) only outc = cf_display (w_s (fst r2)) only outc.
Proof.
  intros w1 w2 Ec Es H r1 r2. destruct w1 as [c sm s1], w2 as [c' sm' s2]. cbn [w_card w_sm] in Ec, Es. subst c' sm'.
  destruct (fit_alike u c sm s1 s2 X H) as [H2 A]. destruct (alike_run u ops _ _ A) as [B E]. destruct (alike_reads _ _ B) as [D S].
  split; [exact H2|]. split; [exact E|]. split; [exact S|exact D].
Qed.
Print Assumptions C78_fit_forgets_history.

(** A request that is not acceptable raises ValueError and changes nothing; an acceptable one for a query that can be transformed reaches
    the solver: if that finds no solution, generate returns, status is the solver's and display raises CounterfactualsFoundWarning. *)
Theorem C78_requests_accepted u c0 sm0 ops r : let w := fst (crun u (new_cf c0 sm0) ops) in let c := w_card w in
  fitted_to_card (new_cf c0 sm0) ops -> card_ok c ->
  (~ acceptable (k_binary c) (k_names c) r -> forall a, cstep u w (Generate r a) = (w, CErr (Raise ValueError))) /\
  (acceptable (k_binary c) (k_names c) r -> forall row q x, one_row (k_names c) (r_query r) row ->
     lookup_all (q_cols (r_query r)) row (k_names c) = Some q -> transform_query (k_vars c) q = Ok x ->
     forall st z, has_solution st = false -> let w' := fst (cstep u w (Generate r (Answer st z))) in
     snd (cstep u w (Generate r (Answer st z))) = COk tt /\ cf_status (w_s w') = COk (Some st) /\
     forall only outc, cf_display (w_s w') only outc = CErr NotFound).
Proof.
  intros w c Hf (_ & _ & Hl). pose proof (in_step_run u _ _ Hf) as I. fold w in I. split.
  - intros Na a. cbn [cstep]. unfold cf_generate, posed. destruct I as (X & d & M & F & N & P). rewrite F, N, P. cbn [negb].
    destruct (check_request (w_card w) (k_names (w_card w)) r) eqn:E; [exfalso; apply Na; now apply check_iff|]. cbn [negb]. destruct w. reflexivity.
  - intros Ha row q x (Hr & _) Hq Hx st z Hst. destruct (posed_ok u w r row q x I Hl Ha Hr Hq Hx) as (d & E). cbn [cstep]. unfold cf_generate. rewrite E, Hst. cbn. auto.
Qed.
Print Assumptions C78_requests_accepted.

(** What generate and display show. A fitted object whose scorecard was not refitted since, a query with one row, the proximity objective
    (default) and an answer of the solver that satisfies the constraints of the problem posed to it: display shows n_cf rows; each one is
    the query with some features moved to other bins of their tables (the other cells a dash with show_only_changes) and, with
    show_outcome, the outcome the scorecard computes for these moves; the moves meet the request, two of them differ as requested; for the
    outcome type probability, the probability meets the bounds up to the error of the piecewise linear logistic function. *)
Theorem C78_counterfactuals u c0 sm0 ops r st z row : let w := fst (crun u (new_cf c0 sm0) ops) in let c := w_card w in
  let sm := w_sm w in let names := k_names c in let cols := q_cols (r_query r) in
  fitted_to_card (new_cf c0 sm0) ops -> card_ok c -> plain_rows sm (k_vars c) -> one_row names (r_query r) row ->
  (forall l, r_obj r = Some l -> exists wt, In (OProximity, wt) l) -> has_solution st = true ->
  (forall G D, posed c sm (w_s w) r = Ok (G, D) -> sound_answer G D (outcome_of r) (n_of r) z) ->
  let w' := fst (cstep u w (Generate r (Answer st z))) in snd (cstep u w (Generate r (Answer st z))) = COk tt ->
  cf_status (w_s w') = COk (Some st) /\
  exists X d q x (cs : nat -> moves), u_math u c X = Ok d /\ values_in_row cols row names q /\ transform_query (k_vars c) q = Ok x /\
  (forall only outc, exists fs, cf_display (w_s w') only outc = COk fs /\ length fs = n_of r /\
     forall k f, nth_error fs k = Some f -> frame_of names cols row (cs k) only f /\
       f_outcome f = if outc then Some (outcome_shown (r_type r) (score_after (k_vars c) x (k_int c) (cs k))) else None) /\
  (forall k, (k < n_of r)%nat -> moves_meet sm names (k_vars c) x r (score_after (k_vars c) x (k_int c) (cs k)) (cs k) /\
     (r_type r = TProbability -> forall eps, segments_within (p_pw d) eps ->
        (requests r CMin -> outcome_shown TProbability (score_after (k_vars c) x (k_int c) (cs k)) >= r_y r - eps) /\
        (requests r CMax -> outcome_shown TProbability (score_after (k_vars c) x (k_int c) (cs k)) <= r_y r + eps))) /\
  (forall k l, (k < l < n_of r)%nat ->
     (requests r CDivF -> differ_in_features (length names) (cs k) (cs l)) /\ (requests r CDivV -> differ_in_values (length names) (cs k) (cs l))).
Proof.
  intros w c sm names cols Hf (Hv & Hn & Hl) Hp (Hr & Hlr & Hin) Hpr Hst Ha w' Hok. pose proof (in_step_run u _ _ Hf) as I. fold w in I.
  assert (Hl' : length names = length (k_vars c)) by exact Hl.
  unfold w'. clear w'. cbn [cstep] in Hok |- *. destruct (cf_generate (w_card w) (w_sm w) (w_s w) r (Answer st z)) as [s' e] eqn:Eg. cbn [snd fst w_s] in *. subst e.
  destruct (generate_inv _ _ _ _ _ _ _ Eg Hst) as (names' & G & D & l & En & Ep & Er & El & E1 & E2 & E3).
  assert (names' = names) as -> by (destruct I as (? & ? & _ & _ & N & _); unfold names, c; congruence).
  split; [unfold cf_status; rewrite E2, E3; reflexivity|].
  destruct (posed_inv u w r G D row I Hr Ep) as (Hac & EG & X & d & q & x & M & Hq & Hx & ED). fold c in Hac, EG, M, Hx, ED. fold sm in ED. fold names in Hac, EG, Hq. fold cols in Hq.
  destruct (Ha G D Ep) as (S & Sf & Sz). rewrite EG, ED in Sf.
  assert (Hg : g_prox (params_of names r) <> None) by (now apply prox_given).
  exists X, d, q, x, (found D S). split; [exact M|]. split; [exact Hq|]. split; [exact Hx|].
  assert (Ch : forall k, (k < n_of r)%nat -> (forall i, shown_feature D (v_z (s_V S k)) i = Ok (match found D S k i with Some j => NewBin j | None => Kept end)) /\
    valid_moves sm (k_vars c) x (g_maxch (params_of names r)) (g_nonact (params_of names r)) (found D S k)).
  { rewrite ED. exact (C63_changes sm (k_vars c) q x (k_int c) _ _ _ _ _ _ _ S Hv Hp Hx Sf). }
  assert (Sc : forall k, (k < n_of r)%nat -> cf_score D (v_z (s_V S k)) = score_after (k_vars c) x (k_int c) (found D S k)).
  { intros k Hk. rewrite ED. destruct (proj1 Sf k Hk) as (_ & _ & Hc & _). destruct (transform_query_nth _ _ _ Hx) as (Hxl & _).
    exact (CounterQ.sound_cf_score sm (k_vars c) x (k_int c) (p_wr d) (p_F d) (p_mu d) (p_pw d) Hxl (ok_len _ Hv) Hp _ _ Hc). }
  assert (Zk : forall k i, new_index D (z k) i = new_index D (v_z (s_V S k)) i) by (intros k i; unfold new_index; now rewrite Sz).
  assert (Zs : forall k, cf_score D (z k) = cf_score D (v_z (s_V S k))).
  { intros k. unfold cf_score, sumn. f_equal. f_equal. apply map_ext. intros i. unfold newx. now rewrite Sz. }
  assert (Zm : forall k i, moves_shown D (z k) i = found D S k i) by (intros k i; unfold found, moves_shown, shown_feature; now rewrite Zk).
  destruct (entries_nth _ _ _ _ _ El) as [Ll Le]. rewrite map_length, seq_length in Ll.
  split; [|split].
  - intros only outc. unfold cf_display. rewrite E3, E1. cbn [negb]. destruct l as [|e0 l0] eqn:E0.
    + exfalso. destruct Hac. cbn in Ll. unfold n_of in Ll. lia.
    + rewrite <- E0 in *. clear E0 e0 l0. eexists. split; [reflexivity|]. split; [rewrite map_length; exact Ll|]. intros k f Hk.
      assert (Lk : (k < n_of r)%nat) by (apply nth_error_Some_lt in Hk; rewrite map_length in Hk; lia).
      destruct (Le k (z k)) as (e & Ee & Eo). { rewrite nth_error_map, (nth_error_nth' _ 0%nat) by (rewrite seq_length; exact Lk). rewrite seq_nth by exact Lk. reflexivity. }
      rewrite nth_error_map, Ee in Hk. injection Hk as <-.
      destruct (Ch k Lk) as [Sh _].
      destruct (shown_entry names r D (z k) e cols row only outc Hn Hr eq_refl Hlr) as [A B]; [|exact Eo|].
      { intros i. rewrite Zm. unfold shown_feature. rewrite Zk. apply Sh. }
      rewrite Zs, Sc in B by exact Lk. split; [|exact B].
      destruct A as (A1 & row' & A2 & A3 & A4). split; [exact A1|]. exists row'. split; [exact A2|]. split; [exact A3|]. intros n v y Hv1 Hy1.
      destruct (A4 n v y Hv1 Hy1) as (y' & Y1 & Y2 & Y3). exists y'. split; [exact Y1|]. split; [|exact Y3]. intros i Hi. rewrite <- Zm. now apply Y2.
  - intros k Lk. destruct (Ch k Lk) as [_ Vm]. split.
    + assert (Vm' := Vm). cbn [params_of g_maxch] in Vm'. rewrite Hl' in Vm'. apply C63_max_changes in Vm' as [Wm _].
      destruct Vm as [Vm _]. split; [|split].
      * intros i j Hij. destruct (Vm i j Hij) as (Na & v & a & Hvi & Hxi & Hra). exists v, a. split; [exact Hvi|]. split; [exact Hxi|]. split; [exact Hra|].
        intros act nm Ea Hnm. eapply nonact_names; [exact Hnm|exact Na|exact Ea].
      * rewrite Hl'. exact Wm.
      * destruct (r_type r) eqn:Et; [|exact Logic.I| |exact Logic.I].
        -- assert (No : forall y, outcome_of r <> OProb y) by (intros y; unfold outcome_of; rewrite Et; discriminate).
           destruct (C63_outcome sm (k_vars c) q x (k_int c) _ _ _ _ _ _ _ S Hv Hp Hx Hg No Sf) as [[Rm _] _].
           destruct (Rm k Lk) as [_ Om]. rewrite <- ED in Om. unfold outcome_of in Om. rewrite Et in Om. cbn [d_x d_int] in Om.
           replace (d_x D) with x in Om by (rewrite ED; reflexivity). replace (d_int D) with (k_int c) in Om by (rewrite ED; reflexivity).
           split; intros Ey; rewrite Ey in Om.
           ++ rewrite (proj2 (reqb_iff 1 1) eq_refl) in Om. exact Om.
           ++ destruct (reqb 0 1) eqn:E01; [apply reqb_iff in E01; lra|exact Om].
        -- assert (No : forall y, outcome_of r <> OProb y) by (intros y; unfold outcome_of; rewrite Et; discriminate).
           destruct (C63_outcome sm (k_vars c) q x (k_int c) _ _ _ _ _ _ _ S Hv Hp Hx Hg No Sf) as [[Rm _] _].
           destruct (Rm k Lk) as [_ Om]. rewrite <- ED in Om. unfold outcome_of in Om. rewrite Et in Om.
           replace (d_x D) with x in Om by (rewrite ED; reflexivity). replace (d_int D) with (k_int c) in Om by (rewrite ED; reflexivity).
           destruct Om as [O1 O2]. split; intros Rq; [apply O1|apply O2]; (apply requests_hard; [exact Rq|now left]).
    + intros Et eps Hs. assert (Sf' := Sf). unfold outcome_of in Sf'. rewrite Et in Sf'.
      destruct (C63_probability sm (k_vars c) q x (k_int c) _ _ _ _ _ _ _ S eps Hv Hp Hx Hg Sf' Hs k Lk) as (P1 & P2 & P3). rewrite <- ED in P1, P2, P3.
      cbn [outcome_shown]. change (fun k0 : nat => moves_shown D (v_z (s_V S k0))) with (found D S) in *. rewrite <- P1.
      split; intros Rq; [apply P2|apply P3]; (apply requests_hard; [exact Rq|now left]).
  - intros k l' Hkl. pose proof (C63_diversity sm (k_vars c) q x (k_int c) _ _ _ _ _ _ _ S Hv Hp Hx Hg Sf) as Dv. rewrite <- ED in Dv.
    destruct (Dv k l' Hkl) as [D1 D2]. rewrite Hl'.
    assert (N1 : r_ncf r <> 1%Z) by (intros E; unfold n_of in Hkl; rewrite E in Hkl; cbn in Hkl; lia).
    split; intros Rq; [apply D1|apply D2]; (apply requests_hard; [exact Rq|now right]).
Qed.
Print Assumptions C78_counterfactuals.

(** generate succeeds with the solution the solver finds for a query with one row, if two features have different numbers of rows to move to. *)
Theorem C78_generate_succeeds u c0 sm0 ops r st z row q x : let w := fst (crun u (new_cf c0 sm0) ops) in let c := w_card w in let sm := w_sm w in
  fitted_to_card (new_cf c0 sm0) ops -> card_ok c -> plain_rows sm (k_vars c) -> acceptable (k_binary c) (k_names c) r ->
  one_row (k_names c) (r_query r) row -> lookup_all (q_cols (r_query r)) row (k_names c) = Some q -> transform_query (k_vars c) q = Ok x ->
  (forall G D, posed c sm (w_s w) r = Ok (G, D) -> sound_answer G D (outcome_of r) (n_of r) z) ->
  has_solution st = true -> different_choices sm (k_vars c) x -> snd (cstep u w (Generate r (Answer st z))) = COk tt.
Proof.
  intros w c sm Hf (Hv & Hn & Hl) Hp Hac (Hr & Hlr & Hin) Hq Hx Ha Hst Hd. pose proof (in_step_run u _ _ Hf) as I. fold w in I.
  destruct (posed_ok u w r row q x I Hl Hac Hr Hq Hx) as (d & Ep). fold c sm in Ep. pose proof (Ha _ _ Ep) as (S & Sf & Sz).
  set (D := make_data sm (k_vars c) x (k_int c) (p_wr d) (p_F d) (p_mu d) (p_pw d)) in *.
  destruct (transform_query_nth _ _ _ Hx) as (Hxl & _).
  cbn [cstep]. unfold cf_generate. fold c sm. rewrite Ep, Hst. replace (rectangular D) with false.
  - assert (En : exists l, entries (match cs_names (w_s w) with Some l => l | None => [] end) r D (map z (seq 0 (n_of r))) = Ok l).
    { apply entries_all. intros zk Hk. apply in_map_iff in Hk as (k & <- & Hk). apply in_seq in Hk. apply (entry_exists _ r D (z k) row Hr). intros i.
      destruct (C63_changes sm (k_vars c) q x (k_int c) _ _ _ _ _ _ _ S Hv Hp Hx Sf k ltac:(lia)) as [Sh _]. specialize (Sh i). fold D in Sh.
      assert (Zk : new_index D (z k) i = new_index D (v_z (s_V S k)) i) by (unfold new_index; now rewrite Sz).
      unfold found in Sh. unfold moves_shown, shown_feature in *. rewrite Zk. exact Sh. }
    destruct En as (l & ->). reflexivity.
  - symmetry. destruct (rectangular D) eqn:E; [|reflexivity]. exfalso.
    assert (Nn : k_vars c <> []) by (intros E0; destruct Hd as (i & ? & ? & ? & ? & ? & E1 & _); rewrite E0 in E1; destruct i; discriminate E1).
    now apply (proj1 (rect_choices sm (k_vars c) x (k_int c) (p_wr d) (p_F d) (p_mu d) (p_pw d) Hv Hp Hxl Nn)).
Qed.
Print Assumptions C78_generate_succeeds.

(** The converse: if all features have the same number of rows to move to (always so for a single variable), generate raises IndexError
    whenever the solver finds a solution. What display shows is that of the last successful generate, status already the new one. *)
Theorem C78_equal_choices_refuted u c0 sm0 ops r st z row q x : let w := fst (crun u (new_cf c0 sm0) ops) in let c := w_card w in let sm := w_sm w in
  fitted_to_card (new_cf c0 sm0) ops -> card_ok c -> k_vars c <> [] -> plain_rows sm (k_vars c) -> acceptable (k_binary c) (k_names c) r ->
  one_row (k_names c) (r_query r) row -> lookup_all (q_cols (r_query r)) row (k_names c) = Some q -> transform_query (k_vars c) q = Ok x ->
  has_solution st = true -> ~ different_choices sm (k_vars c) x -> let w' := fst (cstep u w (Generate r (Answer st z))) in
  snd (cstep u w (Generate r (Answer st z))) = CErr (Raise IndexError) /\
  (forall only outc, cf_display (w_s w') only outc = cf_display (w_s w) only outc) /\
  (generated_since_fit (trace u (new_cf c0 sm0) ops) -> cf_status (w_s w') = COk (Some st)).
Proof.
  intros w c sm Hf (Hv & Hn & Hl) Nn Hp Hac (Hr & Hlr & Hin) Hq Hx Hst Hd. pose proof (in_step_run u _ _ Hf) as I. fold w in I.
  destruct (posed_ok u w r row q x I Hl Hac Hr Hq Hx) as (d & Ep). fold c sm in Ep.
  destruct (transform_query_nth _ _ _ Hx) as (Hxl & _).
  pose proof (proj2 (rect_choices sm (k_vars c) x (k_int c) (p_wr d) (p_F d) (p_mu d) (p_pw d) Hv Hp Hxl Nn) Hd) as Er.
  destruct (flags_trace u c0 sm0 ops) as [_ Gn]. fold w in Gn.
  cbn [cstep]. unfold cf_generate. fold c sm. rewrite Ep, Hst, Er. cbn [snd fst w_s]. split; [reflexivity|]. split; [reflexivity|]. intros H. apply Gn in H. unfold cf_status. cbn. rewrite H. reflexivity.
Qed.
Print Assumptions C78_equal_choices_refuted.

(** A query with several rows: if a counterfactual moves some feature, generate raises. *)
Theorem C78_several_rows_refuted u w r G D st z k i j : posed (w_card w) (w_sm w) (w_s w) r = Ok (G, D) -> has_solution st = true ->
  (2 <= length (q_rows (r_query r)))%nat -> (k < n_of r)%nat -> moves_shown D (z k) i = Some j ->
  (forall names, cs_names (w_s w) = Some names -> (i < length names)%nat) ->
  snd (cstep u w (Generate r (Answer st z))) = CErr (Raise (if rectangular D then IndexError else ValueError)).
Proof.
  intros Ep Hst H2 Hk Hm Hi. cbn [cstep]. unfold cf_generate. rewrite Ep, Hst. destruct (rectangular D); [reflexivity|].
  assert (N : exists names, cs_names (w_s w) = Some names).
  { unfold posed in Ep. destruct (negb (cs_fitted (w_s w))); [discriminate|]. destruct (cs_names (w_s w)); [eauto|discriminate]. }
  destruct N as (names & N). rewrite N. specialize (Hi names N). rewrite (entries_fail names r D (z k)); [reflexivity|apply in_map, in_seq; lia|].
  intros e He. unfold entry_of in He.
  replace (forallb _ (seq 0 (length names))) with false in He; [discriminate|]. symmetry. apply not_true_is_false. intros F. rewrite forallb_forall in F.
  specialize (F i ltac:(apply in_seq; lia)). cbv beta zeta in F. unfold moves_shown, shown_feature in Hm. destruct (new_index D (z k) i) as [|a [|]]; try discriminate Hm.
  destruct (q_rows (r_query r)) as [|a0 [|a1 l0]]; cbn in H2, F; [lia|lia|discriminate F].
Qed.
Print Assumptions C78_several_rows_refuted.

(** Concrete objects: two variables with three and two bins, a continuous scorecard. *)
Definition cardA : card := mkCard true [1%Z; 2%Z] vh (1 / 2) false.
Definition d0 : pdata := mkP [1; 1 / 3] idF [0; 0] [].
Definition u0 : outside := {| u_X := list name; u_cols := fun X => X; u_math := fun _ _ => Ok d0 |}.
Definition rq (y : R) (cols : list name) (rows : list (list xval)) : request :=
  mkR (mkQ cols rows) y TContinuous 1%Z (Some true) None None None (Some [CMin]) None (1 / 2) 10.
Lemma rq_ok names y cols rows : acceptable false names (rq y cols rows).
Proof.
  constructor; cbn; try congruence; try lra; try lia; try discriminate.
  - intros l E. injection E as <-. split; [repeat constructor; intros []|]. intros c [<-|[]]. right. right. split; [now left|discriminate].
  - intros _. left. eexists. split; [reflexivity|]. left. now left.
Qed.
Definition qA : list xval := [XNum (-3); XNum 1].
Definition wA : cworld := fst (crun u0 (new_cf cardA false) [@Fit u0 [1%Z; 2%Z]]).
Lemma fitA : fitted_to_card (new_cf cardA false) [@Fit u0 [1%Z; 2%Z]].
Proof. exists [], [1%Z; 2%Z], []. split; [reflexivity|]. split; [reflexivity|intros c []]. Qed.
Lemma card_okA : card_ok cardA.
Proof. split; [exact vh_ok|]. split; [|reflexivity]. constructor; [intros [H|[]]; discriminate H|]. constructor; [intros []|constructor]. Qed.
Lemma plainA : plain_rows false vh.
Proof. intros v [<-|[<-|[]]]; right; reflexivity. Qed.
Lemma choicesA vars : map sv_metric vars = map sv_metric vh -> map sv_bins vars = map sv_bins vh -> different_choices false vars [-1; -1].
Proof.
  destruct vars as [|v [|v' [|]]]; intros E1 E2; try discriminate E1. injection E1 as M1 M2. injection E2 as B1 B2.
  exists 0%nat, 1%nat, v, v', (-1), (-1). cbn [nth_error]. do 4 (split; [reflexivity|]). unfold n_choices, n_bins_of. rewrite M1, M2, B1, B2. cbn [length firstn Nat.add vh sv_metric sv_bins map].
  cbn [filter]. destruct (Req_EM_T (-1) (-1)) as [_|H]; [|lra]. destruct (Req_EM_T 1 (-1)) as [H|_]; [lra|]. destruct (Req_EM_T 3 (-1)) as [H|_]; [lra|]. destruct (Req_EM_T 2 (-1)) as [H|_]; [lra|]. cbn. lia.
Qed.
Example C78_hyps_met : exists z, let r := rq 1 [2%Z; 7%Z; 1%Z] [[XNum 1; XNum 4; XNum (-3)]] in
  fitted_to_card (new_cf cardA false) [@Fit u0 [1%Z; 2%Z]] /\ card_ok cardA /\ plain_rows false (k_vars cardA) /\ acceptable false (k_names cardA) r /\
  one_row (k_names cardA) (r_query r) [XNum 1; XNum 4; XNum (-3)] /\ lookup_all (q_cols (r_query r)) [XNum 1; XNum 4; XNum (-3)] (k_names cardA) = Some qA /\
  transform_query (k_vars cardA) qA = Ok [-1; -1] /\ different_choices false (k_vars cardA) [-1; -1] /\
  (forall G D, posed cardA false (w_s wA) r = Ok (G, D) -> sound_answer G D (outcome_of r) (n_of r) z) /\
  snd (cstep u0 wA (Generate r (Answer OPTIMAL z))) = COk tt.
Proof.
  set (r := rq 1 [2%Z; 7%Z; 1%Z] [[XNum 1; XNum 4; XNum (-3)]]). set (D := make_data false vh [-1; -1] (1 / 2) (p_wr d0) (p_F d0) (p_mu d0) (p_pw d0)).
  set (cs := fun (_ : nat) i => match i with O => Some 2%nat | 1%nat => None | _ => None end : option nat).
  assert (I := in_step_run u0 _ _ fitA). fold wA in I.
  assert (Or : one_row (k_names cardA) (r_query r) [XNum 1; XNum 4; XNum (-3)]).
  { split; [reflexivity|]. split; [reflexivity|]. intros v [<-|[<-|[]]]; cbn; auto. }
  assert (Ep : posed cardA false (w_s wA) r = Ok (params_of [1%Z; 2%Z] r, D)).
  { apply (posed_gen cardA false (w_s wA) r [1%Z; 2%Z] (mkPr (1 / 2) [1; 2] d0) [-1; -1] []); try reflexivity. apply rq_ok. }
  exists (fun k i => v_z (s_V (CounterQ.build false vh [-1; -1] (1 / 2) (p_wr d0) (p_F d0) (p_mu d0) (p_pw d0) (OCont 1) cs) k) i). cbv zeta.
  assert (Hs : forall G D', posed cardA false (w_s wA) r = Ok (G, D') -> sound_answer G D' (outcome_of r) (n_of r)
    (fun k i => v_z (s_V (CounterQ.build false vh [-1; -1] (1 / 2) (p_wr d0) (p_F d0) (p_mu d0) (p_pw d0) (OCont 1) cs) k) i)).
  { intros G D' E. rewrite Ep in E. injection E as <- <-. eexists. split; [|intros k i; reflexivity].
    apply (CounterQ.build_feasible false vh [-1; -1] (1 / 2) _ _ _ _ eq_refl (ok_len _ vh_ok) plainA (params_of [1%Z; 2%Z] r) (OCont 1) 1 cs); [|intros i []|discriminate].
    apply request_one.
    - split; [|vm_compute; discriminate]. intros [|[|i]] j E; try discriminate E. injection E as <-. split; [intros []|]. eexists; eexists. split; [reflexivity|]. split; [reflexivity|]. split; [vm_compute; lia|cbn; lra].
    - split; [intros _|intros H; discriminate H]. unfold vh. rewrite score2. unfold value_after. cbn. lra. }
  split; [exact fitA|]. split; [exact card_okA|]. split; [exact plainA|]. split; [apply rq_ok|]. split; [exact Or|]. split; [reflexivity|]. split; [reflexivity|].
  split; [apply choicesA; reflexivity|]. split; [exact Hs|].
  apply (C78_generate_succeeds u0 cardA false [@Fit u0 [1%Z; 2%Z]] r OPTIMAL _ [XNum 1; XNum 4; XNum (-3)] qA [-1; -1] fitA card_okA plainA (rq_ok _ _ _ _) Or eq_refl eq_refl Hs eq_refl).
  apply choicesA; reflexivity.
Qed.

(** ... and if no feature is moved, generate succeeds, and display shows every row with the outcome of the first one: here -5/2 also for
    a second row whose score is 3/2. *)
Theorem C78_second_row_refuted : exists z, let r := rq (-100) [1%Z; 2%Z] [qA; [XNum 7; XNum 1]] in
  (forall G D, posed cardA false (w_s wA) r = Ok (G, D) -> sound_answer G D (outcome_of r) (n_of r) z) /\
  transform_query vh [XNum 7; XNum 1] = Ok [3; -1] /\ score_after vh [3; -1] (1 / 2) (fun _ => None) = 3 / 2 /\
  let w' := fst (cstep u0 wA (Generate r (Answer OPTIMAL z))) in snd (cstep u0 wA (Generate r (Answer OPTIMAL z))) = COk tt /\
  exists f, cf_display (w_s w') false true = COk [f] /\ f_rows f = [map Orig qA; [Orig (XNum 7); Orig (XNum 1)]] /\ f_outcome f = Some (- (5) / 2).
Proof.
  set (r := rq (-100) [1%Z; 2%Z] [qA; [XNum 7; XNum 1]]). set (D := make_data false vh [-1; -1] (1 / 2) (p_wr d0) (p_F d0) (p_mu d0) (p_pw d0)).
  exists (stay D). cbv zeta.
  assert (Ep : posed cardA false (w_s wA) r = Ok (params_of [1%Z; 2%Z] r, D)).
  { apply (posed_gen cardA false (w_s wA) r [1%Z; 2%Z] (mkPr (1 / 2) [1; 2] d0) [-1; -1] [[3; -1]]); try reflexivity. apply rq_ok. }
  split; [|split; [reflexivity|split]].
  - intros G D' E. rewrite Ep in E. injection E as <- <-. apply (stay_sound false vh [-1; -1] (1 / 2) _ _ _ _ (params_of [1%Z; 2%Z] r) (OCont (-100)) vh_ok plainA eq_refl); [vm_compute; discriminate|intros i []|discriminate|].
    split; [intros _|intros H; discriminate H]. unfold vh. rewrite score2. unfold value_after. cbn. lra.
  - unfold vh. rewrite score2. unfold value_after. cbn. lra.
  - cbn [cstep]. change (w_card wA) with cardA. change (w_sm wA) with false. unfold cf_generate. rewrite Ep. cbn [has_solution].
    replace (rectangular D) with false.
    + change (cs_names (w_s wA)) with (Some [1%Z; 2%Z]). change (n_of r) with 1%nat. cbn [seq map entries].
      destruct (stay_entry [1%Z; 2%Z] r D 0) as (e & Ee & E1 & E2 & E3 & E4 & E5). rewrite Ee. cbn [rbind fst snd w_s]. split; [reflexivity|].
      exists (show false true e). split; [reflexivity|]. unfold show. cbn [f_rows f_outcome andb]. rewrite E1, E2, E3, E4, stay_score. split; [reflexivity|].
      change (r_type r) with TContinuous. cbv iota. f_equal. unfold sumn. cbn. lra.
    + symmetry. destruct (rectangular D) eqn:E; [|reflexivity]. exfalso. apply (proj1 (rect_choices false vh [-1; -1] (1 / 2) (p_wr d0) (p_F d0) (p_mu d0) (p_pw d0) vh_ok plainA eq_refl ltac:(discriminate)) E).
      apply choicesA; reflexivity.
Qed.
Print Assumptions C78_second_row_refuted.

(** A scorecard fitted again, the explainer not: generate takes the new binning tables with the old coefficients. Same tables, other
    coefficients: the outcome shown for the query itself is -5/2, that of the scorecard 7/2. *)
Definition vB : list svar := map (fun v => mkV (sv_bins v) (sv_sp v) (sv_metric v) (sv_unknown v) (- sv_coef v)) vh.
Definition cardB (names : list name) : card := mkCard true names vB (1 / 2) false.
Lemma stay_generate c s r names P x xs D : cs_fitted s = true -> cs_names s = Some names -> cs_prob s = Some P -> acceptable (k_binary c) names r ->
  transform_table c names (r_query r) = Ok (x :: xs) -> (length (pr_coef P) <= length (k_names c))%nat -> data_of c false P x = D -> rectangular D = false -> n_of r = 1%nat ->
  exists s' e, cf_generate c false s r (Answer OPTIMAL (stay D)) = (s', COk tt) /\ cf_display s' false true = COk [show false true e] /\
    e_score e = sumn (d_p D) (fun i => nth i (d_coef D) 0 * xi D i) + d_int D /\ e_type e = r_type r.
Proof.
  intros F N P0 A T L E Er Nr. unfold cf_generate. rewrite (posed_gen c false s r names P x xs F N P0 A T L), E, N, Nr. cbn [has_solution]. rewrite Er. cbn [seq map entries].
  destruct (stay_entry names r D 0) as (e & Ee & E1 & E2 & E3 & E4 & E5). rewrite Ee. cbn [rbind]. eexists. exists e. split; [reflexivity|]. split; [reflexivity|]. rewrite E4, stay_score. auto.
Qed.
Lemma rectA : rectangular (make_data false vh [-1; -1] (1 / 2) (p_wr d0) (p_F d0) (p_mu d0) (p_pw d0)) = false.
Proof.
  destruct (rectangular _) eqn:E; [|reflexivity]. exfalso. apply (proj1 (rect_choices false vh [-1; -1] (1 / 2) (p_wr d0) (p_F d0) (p_mu d0) (p_pw d0) vh_ok plainA eq_refl ltac:(discriminate)) E).
  apply choicesA; reflexivity.
Qed.
Theorem C78_refitted_scorecard_refuted : let w := fst (crun u0 (new_cf cardA false) [@Fit u0 [1%Z; 2%Z]; RefitScorecard (cardB [1%Z; 2%Z])]) in
  let r := rq (-100) [1%Z; 2%Z] [qA] in exists z, w_card w = cardB [1%Z; 2%Z] /\
  (forall G D, posed (w_card w) false (w_s w) r = Ok (G, D) -> sound_answer G D (outcome_of r) (n_of r) z) /\
  transform_query vB qA = Ok [-1; -1] /\ score_after vB [-1; -1] (1 / 2) (fun _ => None) = 7 / 2 /\
  snd (cstep u0 w (Generate r (Answer OPTIMAL z))) = COk tt /\
  exists f, cf_display (w_s (fst (cstep u0 w (Generate r (Answer OPTIMAL z))))) false true = COk [f] /\ f_outcome f = Some (- (5) / 2).
Proof.
  intros w r. set (D := make_data false vh [-1; -1] (1 / 2) (p_wr d0) (p_F d0) (p_mu d0) (p_pw d0)). exists (stay D). split; [reflexivity|].
  assert (Dd : data_of (cardB [1%Z; 2%Z]) false (mkPr (1 / 2) [1; 2] d0) [-1; -1] = D) by reflexivity.
  assert (Tt : transform_table (cardB [1%Z; 2%Z]) [1%Z; 2%Z] (r_query r) = Ok [[-1; -1]]) by reflexivity.
  split; [|split; [reflexivity|split]].
  - intros G D' E. change (w_card w) with (cardB [1%Z; 2%Z]) in E.
    rewrite (posed_gen (cardB [1%Z; 2%Z]) false (w_s w) r [1%Z; 2%Z] (mkPr (1 / 2) [1; 2] d0) [-1; -1] [] eq_refl eq_refl eq_refl (rq_ok _ _ _ _) Tt (le_n 2)), Dd in E.
    injection E as <- <-. apply (stay_sound false vh [-1; -1] (1 / 2) _ _ _ _ (params_of [1%Z; 2%Z] r) (OCont (-100)) vh_ok plainA eq_refl); [vm_compute; discriminate|intros i []|discriminate|].
    split; [intros _|intros H; discriminate H]. unfold vh. rewrite score2. unfold value_after. cbn. lra.
  - unfold vB, vh. cbn [map sv_bins sv_sp sv_metric sv_unknown sv_coef]. rewrite score2. unfold value_after. cbn. lra.
  - destruct (stay_generate (cardB [1%Z; 2%Z]) (w_s w) r [1%Z; 2%Z] (mkPr (1 / 2) [1; 2] d0) [-1; -1] [] D eq_refl eq_refl eq_refl (rq_ok _ _ _ _) Tt (le_n 2) Dd) as (s' & e & Eg & Ed & Es & Et).
    + exact rectA.
    + reflexivity.
    + cbn [cstep]. change (w_card w) with (cardB [1%Z; 2%Z]). change (w_sm w) with false. rewrite Eg. cbn [fst snd w_s]. split; [reflexivity|]. eexists. split; [exact Ed|].
      cbn [f_outcome show]. rewrite Et, Es. change (r_type r) with TContinuous. cbv iota. f_equal. unfold sumn. cbn. lra.
Qed.
Print Assumptions C78_refitted_scorecard_refuted.

(** A fit that raises is not without effect: here it lets generate explain the new scorecard (variables 3 and 4) with the coefficients of
    the old one (variables 1 and 2), where generate raised before. *)
Theorem C78_failed_fit_refuted : let w := fst (crun u0 (new_cf cardA false) [@Fit u0 [1%Z; 2%Z]; RefitScorecard (cardB [3%Z; 4%Z])]) in
  let w1 := fst (cstep u0 w (@Fit u0 [1%Z; 2%Z])) in let r := rq (-100) [3%Z; 4%Z] [qA] in exists z,
  snd (cstep u0 w (@Fit u0 [1%Z; 2%Z])) = CErr (Raise ValueError) /\
  (forall a, exists e, cstep u0 w (Generate r a) = (w, CErr e)) /\
  snd (cstep u0 w1 (Generate r (Answer OPTIMAL z))) = COk tt /\
  exists f, cf_display (w_s (fst (cstep u0 w1 (Generate r (Answer OPTIMAL z))))) false true = COk [f] /\ f_outcome f = Some (- (5) / 2).
Proof.
  intros w w1 r. set (D := make_data false vh [-1; -1] (1 / 2) (p_wr d0) (p_F d0) (p_mu d0) (p_pw d0)). exists (stay D). split; [reflexivity|]. split.
  - intros a. exists (Raise OtherError). cbn [cstep]. unfold cf_generate, posed. change (cs_fitted (w_s w)) with true. change (cs_names (w_s w)) with (Some [1%Z; 2%Z]). change (cs_prob (w_s w)) with (Some (mkPr (1 / 2) [1; 2] d0)). cbn [negb].
    rewrite (proj2 (check_iff (w_card w) [1%Z; 2%Z] r) (rq_ok _ _ _ _)). reflexivity.
  - assert (Dd : data_of (cardB [3%Z; 4%Z]) false (mkPr (1 / 2) [1; 2] d0) [-1; -1] = D) by reflexivity.
    assert (Tt : transform_table (cardB [3%Z; 4%Z]) [3%Z; 4%Z] (r_query r) = Ok [[-1; -1]]) by reflexivity.
    destruct (stay_generate (cardB [3%Z; 4%Z]) (w_s w1) r [3%Z; 4%Z] (mkPr (1 / 2) [1; 2] d0) [-1; -1] [] D eq_refl eq_refl eq_refl (rq_ok _ _ _ _) Tt (le_n 2) Dd) as (s' & e & Eg & Ed & Es & Et).
    + exact rectA.
    + reflexivity.
    + cbn [cstep]. change (w_card w1) with (cardB [3%Z; 4%Z]). change (w_sm w1) with false. rewrite Eg. cbn [fst snd w_s]. split; [reflexivity|]. eexists. split; [exact Ed|].
      cbn [f_outcome show]. rewrite Et, Es. change (r_type r) with TContinuous. cbv iota. f_equal. unfold sumn. cbn. lra.
Qed.
Print Assumptions C78_failed_fit_refuted.
