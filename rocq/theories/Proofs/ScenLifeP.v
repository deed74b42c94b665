(** SBOptimalBinning over histories: inversion of the fit, what a failing fit leaves. *)
From Coq Require Import List ZArith Bool Arith Lia QArith Reals.
From Verif Require Import Model.Arr Model.Core Model.CP Model.Multi Model.Metrics Model.Lifecycle Model.Scenario Model.ScenLife
  Spec.CoreSpec Spec.CPSpec Spec.ScenarioSpec Spec.ScenLifeSpec Proofs.ArrP Proofs.CoreP Proofs.FitP Proofs.CoreFinal Proofs.MultiP Proofs.LifeR Proofs.ScenP.
Import ListNotations.
Open Scope Z_scope.

Lemma refine_attrs_ok fuel datas : forall fixed user nref splits pb,
  compute_prebins_s fuel datas fixed user nref splits = Some (Ok pb) ->
  refine_attrs fuel datas fixed user nref splits = (mp_fixed pb, mp_user pb, mp_nref pb).
Proof.
  induction fuel as [|fuel IH]; intros fixed user nref splits pb H; [discriminate|]. destruct splits as [|s r].
  - injection H as <-. reflexivity.
  - rewrite compute_prebins_s_step in H. cbv zeta in H. cbn [refine_attrs]. cbv zeta.
    destruct (any (remove_mask_m _ _)); [|injection H as <-; reflexivity].
    destruct fixed as [f|]; [destruct (any (mand f _)); [discriminate|]|]; now apply IH.
Qed.

(** * The loop over the scenarios *)
Definition pair_of (t : table) : list Z * list Z := (t_nev t, t_ev t).
Definition sum_counts (c : option (list Z * list Z)) (l : list (list Z * list Z)) : option (list Z * list Z) :=
  fold_left (fun c t => Some (add_counts c t)) l c.
Definition the_scen_table (e : lenv) user splits (s : scen) (i : bool) (p : list Z * list Z) : table :=
  let l := map num (x_clean (scen_split (l_sp e) s)) in
  mkT (l_sp e) (l_spc e) splits NdArray (fst p) (snd p) (zmin l) (zmax l) i PyList user false false.

Lemma post_loop_ok e user splits sol X : forall ints cols acc c ts c', post_loop e user splits sol X ints cols acc c = (ts, c', Ok tt) ->
  exists ts2, ts = acc ++ ts2 /\ length ts2 = length X /\
    all_some (map2 (scen_table (l_sp e) sol) X cols) = Some (map pair_of ts2) /\ c' = sum_counts c (map pair_of ts2) /\
    (forall i s t, nth_error X i = Some s -> nth_error ts2 i = Some t ->
       map num (x_clean (scen_split (l_sp e) s)) <> [] /\ t = the_scen_table e user splits s (nth i ints false) (pair_of t)).
Proof.
  induction X as [|s X IH]; intros ints cols acc c ts c' H; cbn [post_loop] in H.
  - injection H as <- <-. exists []. rewrite app_nil_r. cbn. split; [reflexivity|]. split; [reflexivity|]. split; [reflexivity|]. split; [reflexivity|]. intros [|i] s t Hs; discriminate.
  - destruct (map num (x_clean (scen_split (l_sp e) s))) as [|z l] eqn:El; [discriminate|]. destruct cols as [|col cols]; [discriminate|].
    destruct (scen_table (l_sp e) sol s col) as [t|] eqn:Et; [|discriminate]. apply IH in H. destruct H as (ts2 & -> & L & A & B & N).
    eexists (_ :: ts2). split; [rewrite <- app_assoc; reflexivity|]. split; [cbn; now rewrite L|]. split; [|split].
    + cbn [map2 all_some map]. rewrite Et, A. unfold pair_of at 3. cbn [t_nev t_ev]. now destruct t.
    + cbn [map]. unfold sum_counts. cbn [fold_left]. unfold pair_of at 2. cbn [t_nev t_ev]. rewrite B. unfold sum_counts. now destruct t.
    + intros [|i] s' t' Hs Ht; cbn [nth_error] in Hs, Ht.
      * injection Hs as <-. injection Ht as <-. rewrite El. split; [discriminate|]. unfold the_scen_table, pair_of. rewrite El. cbn [t_nev t_ev fst snd nth].
        destruct ints; reflexivity.
      * destruct (N i s' t' Hs Ht) as [N1 N2]. split; [exact N1|]. rewrite N2 at 1. f_equal. destruct ints; [destruct i; reflexivity|reflexivity].
Qed.
(** with one Boolean per prebin (the last True) and a clean record in every scenario, the loop ends *)
Lemma post_loop_total e user splits sol : forall X ints cols acc c,
  (forall s, In s X -> map num (x_clean (scen_split (l_sp e) s)) <> []) -> length cols = length X ->
  (forall s col, In s X -> In col cols -> scen_table (l_sp e) sol s col <> None) ->
  snd (post_loop e user splits sol X ints cols acc c) = Ok tt.
Proof.
  induction X as [|s X IH]; intros ints cols acc c H1 H2 H3; [reflexivity|]. cbn [post_loop].
  destruct (map num (x_clean (scen_split (l_sp e) s))) as [|z l] eqn:El; [exfalso; eapply H1; [now left|exact El]|]. destruct cols as [|col cols]; [discriminate|].
  destruct (scen_table (l_sp e) sol s col) as [t|] eqn:Et; [|exfalso; eapply H3; [now left|now left|exact Et]].
  apply IH; [intros; apply H1; now right|cbn in H2; lia|]. intros s' c' Hs Hc. apply H3; now right.
Qed.
Lemma sum_counts_some l : forall a b, sum_counts (Some (a, b)) l = Some (fold_left (map2 Z.add) (map fst l) a, fold_left (map2 Z.add) (map snd l) b).
Proof. induction l as [|[x y] l IH]; intros a b; [reflexivity|]. unfold sum_counts. cbn [fold_left map fst snd add_counts]. apply IH. Qed.
Lemma sum_counts_tables l : l <> [] -> sum_counts None l = Some (add_tables (map fst l), add_tables (map snd l)).
Proof. destruct l as [|[a b] l]; [congruence|]. intros _. unfold sum_counts. cbn [fold_left add_counts]. apply sum_counts_some. Qed.

(** * Stages of a fit *)
Definition same_binning (o o' : sbo) : Prop :=
  q_status o' = q_status o /\ q_splits o' = q_splits o /\ q_counts o' = q_counts o /\ q_tables o' = q_tables o /\ q_table o' = q_table o /\ q_fitted o' = q_fitted o.
Definition emptied (o o' : sbo) : Prop :=
  q_status o' = Some 0 /\ q_splits o' = Some [] /\ q_counts o' = Some None /\ q_tables o' = Some [] /\ q_table o' = q_table o /\ q_fitted o' = q_fitted o.

(** what the refinement works with *)
Definition fixed_p_used (p : sb_obj) (fixed1 : option (bool * list bool)) : option (list bool) := match fixed1 with Some _ => sb_fixed_p p | None => None end.
Definition refinement (e : lenv) (p : sb_obj) (d : sdata) (splits0 : list Z) fixed1 : option (res mprebins) :=
  compute_prebins_s (S (length splits0)) (map (scen_data (l_sp e)) (sd_X d)) (fixed_p_used p fixed1) (sb_user_p p) 0 (map (l_rnd e) splits0).
Definition refinement_attrs (e : lenv) (p : sb_obj) (d : sdata) (splits0 : list Z) fixed1 :=
  refine_attrs (S (length splits0)) (map (scen_data (l_sp e)) (sd_X d)) (fixed_p_used p fixed1) (sb_user_p p) 0 (map (l_rnd e) splits0).
Definition npre_of (pb : mprebins) : nat := match mp_splits pb with [] => 0%nat | l => S (length l) end.
Definition after_refinement (o : sbo) (d : sdata) (fixed1 : option (bool * list bool)) (r : option (list bool) * option (list Z) * nat) : sbo :=
  set_par (set_nscen o (length (sd_X d)))
    {| sb_user := sb_user (q_par o); sb_fixed := fixed1; sb_user_p := snd (fst r);
       sb_fixed_p := match fixed1 with Some _ => fst (fst r) | None => sb_fixed_p (q_par o) end |} (q_nref o + snd r).

Lemma refinement_some e p d s fx : refinement e p d s fx <> None.
Proof. apply compute_prebins_s_terminates. rewrite map_length. lia. Qed.

(** the checks before any attribute changes *)
Definition checked (e : lenv) (o : sbo) (d : sdata) : Prop :=
  l_valid e = true /\ sb_params_ok (q_par o) = true /\ sd_lists d = None /\ match sd_w d with Some v => length v = length (sd_X d) | None => True end.

Inductive fit_run (e : lenv) (o : sbo) (d : sdata) : sbo -> res unit -> Prop :=
| run_unchecked k : ~ checked e o d -> fit_run e o d o (Err k)
| run_early k : checked e o d -> (sd_split d = Some k \/ sd_split d = None /\ pre_splits e (q_par o) d = Err k) ->
    fit_run e o d (set_nscen o (length (sd_X d))) (Err k)
| run_refused s0 fx k : checked e o d -> sd_split d = None -> pre_splits e (q_par o) d = Ok (s0, fx) ->
    refinement e (q_par o) d s0 fx = Some (Err k) ->
    fit_run e o d (after_refinement o d fx (refinement_attrs e (q_par o) d s0 fx)) (Err k)
| run_optimiser s0 fx pb o' r : checked e o d -> sd_split d = None -> pre_splits e (q_par o) d = Ok (s0, fx) ->
    refinement e (q_par o) d s0 fx = Some (Ok pb) ->
    sb_optimise e (set_npre (after_refinement o d fx (mp_fixed pb, mp_user pb, mp_nref pb)) (npre_of pb)) d pb = (o', r) ->
    fit_run e o d o' r.

Lemma fit_runs e o d : let (o', r) := sb_fit_obj e o d in fit_run e o d o' r.
Proof.
  unfold sb_fit_obj. destruct (l_valid e) eqn:V; [|cbn; apply run_unchecked; unfold checked; intuition congruence]. cbn [negb orb].
  destruct (sb_params_ok (q_par o)) eqn:P; [|cbn; apply run_unchecked; unfold checked; intuition congruence]. cbn [negb].
  destruct (sd_lists d) as [k|] eqn:L; [apply run_unchecked; unfold checked; intuition congruence|].
  destruct (match sd_w d with Some v => negb (length v =? length (sd_X d))%nat | None => false end) eqn:W.
  { apply run_unchecked. unfold checked. destruct (sd_w d); [|discriminate]. intros (_ & _ & _ & H). rewrite H, Nat.eqb_refl in W. discriminate. }
  assert (C : checked e o d).
  { unfold checked. repeat (split; [assumption|]). destruct (sd_w d); [|exact I]. apply negb_false_iff, Nat.eqb_eq in W. exact W. }
  cbv zeta. destruct (sd_split d) as [k|] eqn:S; [apply run_early; auto|]. cbn [set_nscen q_par].
  destruct (pre_splits e (q_par o) d) as [[s0 fx]|k] eqn:Ep; [|apply run_early; auto].
  change (match fx with Some _ => sb_fixed_p (q_par o) | None => None end) with (fixed_p_used (q_par o) fx).
  change (refine_attrs _ _ _ _ _ _) with (refinement_attrs e (q_par o) d s0 fx).
  change (compute_prebins_s _ _ _ _ _ _) with (refinement e (q_par o) d s0 fx).
  destruct (refinement_attrs e (q_par o) d s0 fx) as [[f us] k] eqn:Ea.
  destruct (refinement e (q_par o) d s0 fx) as [[pb|x]|] eqn:Er.
  - pose proof (refine_attrs_ok _ _ _ _ _ _ _ Er) as Eb. change (refine_attrs _ _ _ _ _ _) with (refinement_attrs e (q_par o) d s0 fx) in Eb. rewrite Ea in Eb. injection Eb as -> -> ->.
    match goal with |- let (_, _) := ?t in _ => destruct t as [o' r] eqn:Eo end. eapply run_optimiser; eauto.
  - pose proof (run_refused e o d s0 fx x C S Ep Er) as R. rewrite Ea in R. exact R.
  - exfalso. exact (refinement_some _ _ _ _ _ Er).
Qed.
Lemma fit_run_of e o d o' r : sb_fit_obj e o d = (o', r) -> fit_run e o d o' r.
Proof. intros H. pose proof (fit_runs e o d) as R. now rewrite H in R. Qed.

Lemma set_tab_fitted o t : q_fitted (set_tab o t) = true. Proof. reflexivity. Qed.
Lemma post_fitted e o d sol s cols o' r : sb_post e o d sol s cols = (o', r) ->
  q_fitted o' = match r with Ok _ => true | Err _ => q_fitted o end /\ q_par o' = q_par o.
Proof. unfold sb_post. destruct (post_loop _ _ _ _ _ _ _ _ _) as [[ts c] [u|k]]; intros H; injection H as <- <-; split; reflexivity. Qed.
Lemma optimise_fitted e o d pb o' r : sb_optimise e o d pb = (o', r) ->
  q_fitted o' = match r with Ok _ => true | Err _ => q_fitted o end /\ q_par o' = q_par o.
Proof.
  unfold sb_optimise. destruct (mp_splits pb) as [|z l].
  - intros H. apply post_fitted in H. exact H.
  - destruct (sd_X d); [intros H; injection H as <- <-; split; reflexivity|]. destruct (match sd_w d with Some v => int_weights v | None => _ end); [|intros H; injection H as <- <-; split; reflexivity].
    destruct (l_solve e _) as [[st sol]|k]; [|intros H; injection H as <- <-; split; reflexivity]. intros H. apply post_fitted in H. exact H.
Qed.
Lemma fit_fitted e o d o' r : sb_fit_obj e o d = (o', r) -> q_fitted o' = match r with Ok _ => true | Err _ => q_fitted o end.
Proof. intros H. apply fit_run_of in H. destruct H; try reflexivity. apply optimise_fitted in H3. exact (proj1 H3). Qed.

(** the parameters after a fit *)
Lemma fit_par e o d o' r : sb_fit_obj e o d = (o', r) ->
  sb_user (q_par o') = sb_user (q_par o) /\ (sb_fixed (q_par o) = None -> sb_fixed (q_par o') = None /\ sb_user_p (q_par o') = sb_user_p (q_par o) /\ sb_fixed_p (q_par o') = sb_fixed_p (q_par o)).
Proof.
  assert (N : forall fuel datas u n s, snd (fst (refine_attrs fuel datas None u n s)) = u).
  { induction fuel as [|f IH]; intros datas u n s; [reflexivity|]. destruct s as [|z s]; [reflexivity|]. cbn [refine_attrs]. cbv zeta. destruct (any _); [|reflexivity]. apply IH. }
  assert (P0 : forall s0 fx, pre_splits e (q_par o) d = Ok (s0, fx) -> sb_fixed (q_par o) = None -> fx = None).
  { unfold pre_splits. intros s0 fx H Hf. destruct (sb_user (q_par o)); [destruct (_ || _)%bool; [discriminate|]; injection H as <- <-; now rewrite Hf|].
    destruct (sd_X d); [discriminate|]. destruct (l_prebin e _ _); [injection H as <- <-; exact Hf|discriminate]. }
  intros H. apply fit_run_of in H. destruct H as [k U|k U1 U2|s0 fx k C S Ep Er|s0 fx pb o' r C S Ep Er Eo]; [auto|cbn; auto| |].
  - split; [reflexivity|]. intros Hf. rewrite (P0 _ _ Ep Hf). split; [reflexivity|]. split; [|reflexivity]. cbn [after_refinement set_par q_par sb_user_p]. unfold refinement_attrs, fixed_p_used. apply N.
  - destruct (optimise_fitted _ _ _ _ _ _ Eo) as [_ ->]. cbn. split; [reflexivity|]. intros Hf. pose proof (P0 _ _ Ep Hf) as ->. split; [reflexivity|]. split; [|reflexivity].
    pose proof (refine_attrs_ok _ _ _ _ _ _ _ Er) as Eb. unfold fixed_p_used in Eb. rewrite <- (N _ _ _ _ _ : snd (fst (refine_attrs (Datatypes.S (length s0)) (map (scen_data (l_sp e)) (sd_X d)) None (sb_user_p (q_par o)) 0 (map (l_rnd e) s0))) = _). now rewrite Eb.
Qed.
