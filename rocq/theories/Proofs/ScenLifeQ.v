(** SBOptimalBinning over histories: a successful fit is the fit of C65; failing fits; transform and tables. *)
From Coq Require Import List ZArith Bool Arith Lia QArith Reals.
From Verif Require Import Model.Arr Model.Core Model.CP Model.Multi Model.Metrics Model.Lifecycle Model.Scenario Model.ScenLife
  Spec.CoreSpec Spec.CPSpec Spec.ScenarioSpec Spec.ScenLifeSpec Proofs.ArrP Proofs.CoreP Proofs.FitP Proofs.CoreFinal Proofs.MultiP Proofs.LifeR Proofs.ScenP Proofs.ScenLifeP.
Import ListNotations.
Open Scope Z_scope.

Lemma sort_by_key_len {A} (l : list (Z * A)) : length (sort_by_key l) = length l.
Proof.
  assert (I : forall x (m : list (Z * A)), length (insert_by_key x m) = S (length m)) by (intros x m; induction m as [|y m IH]; cbn; [reflexivity|]; destruct (_ : bool); cbn; rewrite ?IH; reflexivity).
  unfold sort_by_key. induction l as [|x l IH]; [reflexivity|]. cbn [fold_right]. rewrite I, IH. reflexivity.
Qed.
Lemma solutions_ok e : lenv_ok e -> forall s0, nondecreasing s0 -> sb_env_ok (scen_env e s0 (solutions e)).
Proof.
  intros K s0 Hs. constructor; cbn [scen_env se_prebin se_rnd se_sp se_solver].
  - intros _. exact Hs.
  - apply (lk_rnd _ K).
  - apply (lk_sp _ K).
  - apply (lk_nan _ K).
  - intros pr n Hn Hc Hl. unfold solutions. destruct (l_solve e pr) as [[st sol]|k] eqn:E; [eapply (lk_solve _ K); eauto|].
    destruct (pr_cols pr) as [|c r]; [congruence|]. destruct (Hl c (or_introl eq_refl)) as [L _]. rewrite L.
    split; [rewrite app_length, repeat_length; cbn; lia|apply last_last].
Qed.

Record fit_done (e : lenv) (o : sbo) (d : sdata) (o' : sbo) (f : sfitted) (st : Z) (ts : list table) (s0 : list Z) : Prop := {
  fd_pre : prebinned e (sb_user (q_par o)) d s0 /\ (sb_user (q_par o) <> None -> s0 = []);
  fd_fit : sb_fit (scen_env e s0 (solutions e)) (q_par o) (sd_X d) (sd_w d) = (q_par o', Some (Ok f));
  fd_solve : l_solve e (sf_problem f) = Ok (st, sf_solution f);
  fd_status : q_status o' = Some st;
  fd_splits : q_splits o' = Some (sf_splits f);
  fd_counts : q_counts o' = Some (Some (sf_nev f, sf_ev f));
  fd_tables : q_tables o' = Some ts;
  fd_pairs : map pair_of ts = sf_tables f;
  fd_each : let user := option_map (pair (l_ucont e)) (sb_user (q_par o)) in
     forall i s t, nth_error (sd_X d) i = Some s -> nth_error ts i = Some t ->
       map num (x_clean (scen_split (l_sp e) s)) <> [] /\ t = the_scen_table e user (sf_splits f) s (nth i (sd_int d) false) (pair_of t);
  fd_len : length ts = length (sd_X d);
  fd_table : q_table o' = Some (main_table e (option_map (pair (l_ucont e)) (sb_user (q_par o))) (sf_splits f) (Some (sf_nev f, sf_ev f)) ts);
  fd_fitted : q_fitted o' = true;
  fd_nscen : q_nscen o' = Some (length (sd_X d));
  fd_npre : q_npre o' = Some (S (length (mp_splits (sf_prebins f))));
  fd_nref : q_nref o' = (q_nref o + mp_nref (sf_prebins f))%nat }.

Lemma fit_ok e o d o' : sb_fit_obj e o d = (o', Ok tt) -> exists f st ts s0, fit_done e o d o' f st ts s0.
Proof.
  intros H. apply fit_run_of in H. remember (Ok tt) as r eqn:Er. destruct H as [k U|k U1 U2|s0 fx k C Sp Ep Ec|s0 fx pb o' r C Sp Ep Ec Eo]; try discriminate. subst r.
  destruct C as (C1 & C2 & C3 & C4). unfold sb_optimise in Eo. destruct (mp_splits pb) as [|z l] eqn:Es.
  { exfalso. unfold sb_post in Eo. destruct (sd_X d) as [|s X] eqn:EX.
    - unfold pre_splits in Ep. destruct (sb_user (q_par o)) as [u|] eqn:Eu; [|rewrite EX in Ep; discriminate].
      destruct (_ || _)%bool eqn:Eb; [discriminate|]. injection Ep as <- <-. apply orb_false_iff in Eb. destruct Eb as [Eb _].
      unfold refinement in Ec. rewrite EX in Ec. cbn [map] in Ec.
      assert (L : length (sorted_splits u) = length u) by (unfold sorted_splits; rewrite map_length, sort_by_key_len, map_length; reflexivity).
      destruct (map (l_rnd e) (sorted_splits u)) as [|y ys] eqn:Em; [apply (f_equal (@length _)) in Em; rewrite map_length, L in Em; cbn in Em; rewrite Em in Eb; discriminate|].
      rewrite compute_prebins_s_step in Ec. cbv zeta in Ec. cbn [scen_cols map] in Ec.
      assert (An : any (remove_mask_m (S (length (y :: ys))) []) = false).
      { unfold remove_mask_m. cbn [fold_left]. apply any_false_iff. intros b Hb. now apply repeat_spec in Hb. }
      change (@nil (list Z * list Z)) with (scen_cols (y :: ys) []) in An. cbn [scen_cols map] in An. rewrite An in Ec. injection Ec as <-. discriminate.
    - cbn [post_loop] in Eo. destruct (map num _); discriminate. }
  cbn [sb_post set_npre after_refinement set_par q_par sb_fixed] in Eo.
  destruct (sd_X d) as [|x0 X'] eqn:EX; [discriminate|]. rewrite <- EX in *.
  destruct (match sd_w d with Some v => int_weights v | None => Some (repeat 1 (length (sd_X d))) end) as [wi|] eqn:Ew; [|discriminate].
  set (pr := {| pr_cols := mp_cols pb; pr_lens := _; pr_w := wi; pr_fixed := _ |}) in *.
  destruct (l_solve e pr) as [[st sol]|k] eqn:El; [|discriminate]. unfold sb_post in Eo.
  destruct (post_loop _ _ _ _ _ _ _ _ _) as [[ts c] [u|k]] eqn:Eq; [|discriminate]. destruct u. injection Eo as <-.
  apply post_loop_ok in Eq. destruct Eq as (ts2 & -> & Lt & A & -> & N). cbn [app] in *.
  set (f := {| sf_splits := select (init sol) (z :: l); sf_solution := sol; sf_tables := map pair_of ts2; sf_nev := add_tables (map fst (map pair_of ts2));
               sf_ev := add_tables (map snd (map pair_of ts2)); sf_prebins := pb;
               sf_problem := pr |}).
  assert (NE : map pair_of ts2 <> []) by (intros E; apply map_eq_nil in E; subst ts2; rewrite EX in Lt; discriminate).
  pose proof (sum_counts_tables _ NE) as Sc.
  exists f, st, ts2, (match sb_user (q_par o) with Some _ => [] | None => s0 end).
  constructor; cbn [q_par q_status q_splits q_counts q_tables q_table q_fitted q_nscen q_npre q_nref set_tab set_post set_res set_npre set_par set_nscen after_refinement f sf_splits sf_solution sf_tables sf_nev sf_ev sf_prebins sf_problem mp_splits mp_nref fst snd].
  - unfold prebinned. unfold pre_splits in Ep. destruct (sb_user (q_par o)) as [u|]; [split; auto|]. rewrite EX in Ep. rewrite <- EX in Ep. destruct (l_prebin e _ _) as [s|k]; [injection Ep as <- <-|discriminate]. split; [reflexivity|congruence].
  - unfold sb_fit. rewrite C2. cbn [negb]. replace (match sd_w d with Some v => negb (length v =? length (sd_X d))%nat | None => false end) with false by (destruct (sd_w d); [rewrite C4, Nat.eqb_refl|]; reflexivity).
    rewrite EX. rewrite <- EX. cbv zeta. cbn [scen_env se_sp se_rnd se_prebin se_solver].
    assert (Epre : match sb_user (q_par o) with
             | Some u => if (length u =? 0)%nat || negb (distinct u) then None else Some (sorted_splits u, option_map (fun nf => (true, permuted u (snd nf))) (sb_fixed (q_par o)))
             | None => Some (match sb_user (q_par o) with Some _ => [] | None => s0 end, sb_fixed (q_par o)) end = Some (s0, fx)).
    { unfold pre_splits in Ep. destruct (sb_user (q_par o)) as [u|]; [destruct (_ || _)%bool; [discriminate|]; now injection Ep as <- <-|].
      rewrite EX in Ep. rewrite <- EX in Ep. destruct (l_prebin e _ _); [now injection Ep as <- <-|discriminate]. }
    rewrite Epre. unfold refinement, fixed_p_used in Ec. cbn [scen_env se_sp se_rnd se_prebin se_solver]. rewrite Ec, Es. cbn [sb_fixed].
    rewrite Ew. fold pr. unfold solutions. rewrite El, A. reflexivity.
  - exact El.
  - reflexivity.
  - reflexivity.
  - rewrite Sc. reflexivity.
  - reflexivity.
  - reflexivity.
  - intros i s t Hs Ht. destruct (N i s t Hs Ht) as [N1 N2]. auto.
  - exact Lt.
  - rewrite Sc. reflexivity.
  - reflexivity.
  - reflexivity.
  - unfold npre_of. now rewrite Es.
  - reflexivity.
Qed.
