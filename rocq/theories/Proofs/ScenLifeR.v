(** SBOptimalBinning over histories: the fitted flag, the parameters, and independence of the past. *)
From Coq Require Import List ZArith Bool Arith Lia QArith Reals.
From Verif Require Import Model.Arr Model.Core Model.CP Model.Multi Model.Metrics Model.Lifecycle Model.Scenario Model.ScenLife
  Spec.CoreSpec Spec.CPSpec Spec.ScenarioSpec Spec.ScenLifeSpec Proofs.ArrP Proofs.CoreP Proofs.FitP Proofs.CoreFinal Proofs.MultiP Proofs.LifeP Proofs.LifeR Proofs.ScenP
  Proofs.ScenLifeP Proofs.ScenLifeQ.
Import ListNotations.
Open Scope Z_scope.

Lemma fits_iff e w d : fits_data e w d <-> snd (sb_fit_obj e (fst w) d) = Ok tt.
Proof.
  unfold fits_data, ask. destruct w as [o fs]. cbn [sb_step fst]. destruct (sb_fit_obj e o d) as [o' [[]|k]]; cbn [snd]; split; congruence.
Qed.
Lemma establishes_flag e w c : q_fitted (fst (fst (sb_step e w c))) = true <-> q_fitted (fst w) = true \/ establishes e w c.
Proof.
  destruct w as [o fs]. assert (F : forall d, q_fitted (fst (sb_fit_obj e o d)) = true <-> q_fitted o = true \/ snd (sb_fit_obj e o d) = Ok tt).
  { intros d. destruct (sb_fit_obj e o d) as [o' r] eqn:E. pose proof (fit_fitted _ _ _ _ _ E) as G. cbn [fst snd]. rewrite G. destruct r as [[]|k]; [tauto|].
    split; [tauto|]. intros [K|K]; [exact K|discriminate]. }
  assert (N : ~ (exists d, fit_of_call c d) -> (forall p, c <> SReadJson p) -> ~ establishes e (o, fs) c).
  { intros A B [(d & C & _)|[p C]]; [apply A; eauto|now apply (B p)]. }
  destruct c; cbn [sb_step fst].
  - rewrite (surjective_pairing (sb_fit_obj e o d)). cbn [fst]. rewrite F. split; intros [A|A]; auto.
    + right. left. exists d. split; [now left|]. now apply fits_iff.
    + destruct A as [(d' & [C|(x & m & C)] & D)|[p C]]; try discriminate. injection C as <-. right. now apply fits_iff in D.
  - rewrite (surjective_pairing (sb_fit_obj e o d)). cbn [fst]. rewrite F. split; intros [A|A]; auto.
    + right. left. exists d. split; [right; eauto|]. now apply fits_iff.
    + destruct A as [(d' & [C|(x & m' & C)] & D)|[p C]]; try discriminate. injection C as <- _ _. right. now apply fits_iff in D.
  - split; [tauto|]. intros [A|A]; [exact A|]. exfalso. revert A. apply N; [intros (d & [C|(x & m' & C)]); discriminate|discriminate].
  - split; [tauto|]. intros [A|A]; [exact A|]. exfalso. revert A. apply N; [intros (d & [C|(x & m' & C)]); discriminate|discriminate].
  - split; [tauto|]. intros [A|A]; [exact A|]. exfalso. revert A. apply N; [intros (d & [C|(x & m' & C)]); discriminate|discriminate].
  - split; [tauto|]. intros [A|A]; [exact A|]. exfalso. revert A. apply N; [intros (d & [C|(x & m' & C)]); discriminate|discriminate].
  - split; [tauto|]. intros [A|A]; [exact A|]. exfalso. revert A. apply N; [intros (d & [C|(x & m' & C)]); discriminate|discriminate].
  - split; [tauto|]. intros [A|A]; [exact A|]. exfalso. revert A. apply N; [intros (d & [C|(x & m' & C)]); discriminate|discriminate].
  - destruct (sb_to_json o fs p) as [fs' r]. cbn [fst]. split; [tauto|]. intros [A|A]; [exact A|]. exfalso. revert A. apply N; [intros (d & [C|(x & m' & C)]); discriminate|discriminate].
  - rewrite (surjective_pairing (sb_read_json o fs p)). cbn [fst]. split; [|intros _; unfold sb_read_json; destruct (fs p) as [[j|]|]; reflexivity]. intros _. right. right. eauto.
Qed.
Lemma exec_cons e w c h : sb_exec e w (c :: h) =
  (fst (sb_exec e (fst (sb_step e w c)) h), snd (sb_step e w c) :: snd (sb_exec e (fst (sb_step e w c)) h)).
Proof. cbn [sb_exec]. destruct (sb_step e w c) as [w' v]. cbn [fst snd]. destruct (sb_exec e w' h). reflexivity. Qed.
Lemma established_cons e w c h : established e w (c :: h) <-> establishes e w c \/ established e (fst (sb_step e w c)) h.
Proof.
  split.
  - intros (h1 & c' & h2 & E & H). destruct h1 as [|a h1]; cbn [app] in E.
    + injection E as -> ->. left. exact H.
    + injection E as -> ->. right. exists h1, c', h2. split; [reflexivity|]. rewrite exec_cons in H. exact H.
  - intros [H|(h1 & c' & h2 & -> & H)].
    + exists [], c, h. split; [reflexivity|exact H].
    + exists (c :: h1), c', h2. split; [reflexivity|]. rewrite exec_cons. exact H.
Qed.
Lemma exec_flag e h : forall w, q_fitted (fst (fst (sb_exec e w h))) = true <-> q_fitted (fst w) = true \/ established e w h.
Proof.
  induction h as [|c h IH]; intros w.
  - cbn [sb_exec fst]. split; [tauto|]. intros [A|(h1 & c & h2 & E & _)]; [exact A|]. destruct h1; discriminate.
  - rewrite exec_cons. cbn [fst]. rewrite IH, establishes_flag, established_cons. tauto.
Qed.

Lemma all_res_nf {A B} (f : A -> res B) l : (forall x, f x <> Err NotFitted) -> all_res (map f l) <> Err NotFitted.
Proof. intros H K. apply all_res_err in K. apply in_map_iff in K. destruct K as (x & K & _). exact (H x K). Qed.
Lemma sb_transform_nf e o xs m : sb_transform e o xs m = Err NotFitted <-> q_fitted o = false.
Proof.
  unfold sb_transform. destruct (q_fitted o); cbn [negb]; [|tauto]. split; [|discriminate]. intros H. exfalso. destruct m as [ms mm|b ms mm|]; [| |discriminate].
  - destruct (q_splits o) as [s|]; [|discriminate]. destruct (all_res _) as [l|k] eqn:E; [discriminate|]. injection H as ->. revert E. apply all_res_nf. intros x E.
    pose proof (transform1_idx s (l_sp e) MIndices ms mm (map Z.of_nat (seq 0 (S (length s) + n_special (l_sp e) + 1))) (-1) x) as K.
    unfold transform_indices in E. rewrite E in K. discriminate K.
  - destruct (q_splits o) as [s|]; [|discriminate]. destruct (q_counts o) as [[[a c]|]|]; try discriminate.
    destruct (all_res _) as [l|k] eqn:E; [discriminate|]. injection H as ->. revert E. apply all_res_nf. intros x E. unfold transform_binary_num in E.
    match type of E with store_res _ ?t = _ => assert (K : idx_like t) by apply transform1_idx; destruct t; [discriminate|]; cbn in K, E; congruence end.
Qed.
Lemma needs_fit_nf e w c : needs_fit c -> (ask e w c = Err NotFitted <-> q_fitted (fst w) = false).
Proof.
  destruct w as [o fs]. unfold ask. cbn [fst]. destruct c; cbn [needs_fit]; intros N; try contradiction; cbn [sb_step snd]; unfold sb_guard.
  - rewrite <- (sb_transform_nf e o xs m). destruct (sb_transform e o xs m); split; congruence.
  - destruct (q_fitted o); cbn [negb]; split; congruence.
  - destruct (q_fitted o); cbn [negb]; split; congruence.
  - destruct (q_fitted o); cbn [negb]; split; congruence.
  - unfold scen_tab. destruct (q_fitted o); cbn [negb]; [|tauto]. split; [|discriminate]. destruct id as [i|]; [|discriminate].
    destruct (i <? 0); [discriminate|]. destruct (q_nscen o) as [n|]; [|discriminate]. destruct (_ <=? i); [discriminate|]. destruct (q_tables o); [|discriminate]. destruct (nth_error _ _); discriminate.
  - destruct (q_fitted o), ok; cbn [negb]; split; congruence.
  - destruct p as [p|]; [|contradiction]. unfold sb_to_json. destruct (q_fitted o); cbn [negb]; [|cbn; tauto]. split; [|discriminate].
    destruct (q_table o) as [t|]; [|discriminate]. destruct (json_ok t); discriminate.
Qed.

(** * The parameters *)
Lemma permuted_len u f : length u = length f -> length (permuted u f) = length f.
Proof. intros H. unfold permuted. rewrite map_length, sort_by_key_len, combine_length, H. apply Nat.min_id. Qed.
Definition par_ok (user : option (list Z)) (fixed : option (list bool)) (p : sb_obj) : Prop := p = sb_new user fixed \/ sb_params_ok p = false.

Lemma fit_par_ok user fixed e o d o' r : par_ok user fixed (q_par o) -> sb_fit_obj e o d = (o', r) -> par_ok user fixed (q_par o').
Proof.
  intros P H. pose proof (fit_par _ _ _ _ _ H) as [U F]. apply fit_run_of in H.
  assert (G : checked e o d -> (exists s0 fx, pre_splits e (q_par o) d = Ok (s0, fx) /\ sb_fixed (q_par o') = fx) -> par_ok user fixed (q_par o')).
  { intros (_ & C & _) (s0 & fx & Ep & Ef). destruct P as [P|P]; [|congruence]. rewrite P in *. cbn [sb_new sb_user sb_fixed] in *.
    destruct fixed as [f|]; cbn [option_map] in *.
    - unfold sb_params_ok in C. cbn [sb_new sb_fixed sb_user option_map] in C. destruct user as [u|]; [|discriminate]. cbn [negb orb andb] in C. apply Nat.eqb_eq in C.
      unfold pre_splits in Ep. cbn [sb_new sb_user sb_fixed option_map snd] in Ep. destruct (length u =? 0)%nat eqn:E0; [discriminate|]. cbn [orb] in Ep. destruct (negb (distinct u)); [discriminate|].
      injection Ep as <- <-. right. unfold sb_params_ok. rewrite Ef, U, permuted_len by exact C. rewrite C in E0. rewrite E0. reflexivity.
    - destruct (F eq_refl) as (F1 & F2 & F3). left. destruct (q_par o') as [a b c g]. cbn in *. unfold sb_new. now rewrite U, F1, F2, F3. }
  destruct H as [k N|k C _|s0 fx k C S Ep Ec|s0 fx pb o' r C S Ep Ec Eo]; [exact P|exact P| |].
  - apply G; [exact C|]. exists s0, fx. split; [exact Ep|reflexivity].
  - apply G; [exact C|]. exists s0, fx. split; [exact Ep|]. destruct (optimise_fitted _ _ _ _ _ _ Eo) as [_ ->]. reflexivity.
Qed.
Lemma step_par_ok user fixed e w c : par_ok user fixed (q_par (fst w)) -> par_ok user fixed (q_par (fst (fst (sb_step e w c)))).
Proof.
  destruct w as [o fs]. cbn [fst]. intros P. destruct c; cbn [sb_step fst]; try exact P.
  - destruct (sb_fit_obj e o d) as [o' r] eqn:E. exact (fit_par_ok _ _ _ _ _ _ _ P E).
  - destruct (sb_fit_obj e o d) as [o' r] eqn:E. exact (fit_par_ok _ _ _ _ _ _ _ P E).
  - destruct (sb_to_json o fs p). exact P.
  - unfold sb_read_json. destruct (fs p) as [[j|]|]; exact P.
Qed.
Lemma exec_par_ok user fixed e h : forall w, par_ok user fixed (q_par (fst w)) -> par_ok user fixed (q_par (fst (fst (sb_exec e w h)))).
Proof.
  induction h as [|c h IH]; intros w P; [exact P|]. rewrite exec_cons. cbn [fst]. apply IH, step_par_ok, P.
Qed.
Lemma fit_params e o d o' : sb_fit_obj e o d = (o', Ok tt) -> sb_params_ok (q_par o) = true.
Proof.
  intros H. unfold sb_fit_obj in H. destruct (sb_params_ok (q_par o)); [reflexivity|]. cbn [negb] in H. rewrite orb_true_r in H. discriminate.
Qed.

(** * The past does not matter *)
Lemma post_res e o1 o2 d sol s cols : q_par o1 = q_par o2 -> snd (sb_post e o1 d sol s cols) = snd (sb_post e o2 d sol s cols).
Proof. intros H. unfold sb_post. rewrite H. destruct (post_loop _ _ _ _ _ _ _ _ _) as [[ts c] [u|k]]; reflexivity. Qed.
Lemma optimise_res e o1 o2 d pb : q_par o1 = q_par o2 -> snd (sb_optimise e o1 d pb) = snd (sb_optimise e o2 d pb).
Proof.
  intros H. unfold sb_optimise. rewrite H. destruct (mp_splits pb); [apply post_res; exact H|].
  destruct (sd_X d); [reflexivity|]. destruct (match sd_w d with Some v => int_weights v | None => _ end); [|reflexivity].
  destruct (l_solve e _) as [[st sol]|k]; [|reflexivity]. apply post_res. exact H.
Qed.
Lemma fit_res e o1 o2 d : q_par o1 = q_par o2 -> snd (sb_fit_obj e o1 d) = snd (sb_fit_obj e o2 d).
Proof.
  intros H. unfold sb_fit_obj. cbv zeta. cbn [set_nscen q_par]. rewrite H. destruct (_ || _)%bool; [reflexivity|]. destruct (sd_lists d); [reflexivity|].
  destruct (match sd_w d with Some v => _ | None => false end); [reflexivity|]. destruct (sd_split d); [reflexivity|].
  destruct (pre_splits e (q_par o2) d) as [[s0 fx]|k]; [|reflexivity].
  match goal with |- context [refine_attrs ?a ?b ?c ?d ?e ?f] => destruct (refine_attrs a b c d e f) as [[f1 us] k] end.
  match goal with |- context [compute_prebins_s ?a ?b ?c ?d ?e ?f] => destruct (compute_prebins_s a b c d e f) as [[pb|x]|] end; [|reflexivity|reflexivity].
  apply optimise_res. reflexivity.
Qed.

Definition alike (o1 o2 : sbo) : Prop :=
  q_par o1 = q_par o2 /\ q_nscen o1 = q_nscen o2 /\ q_npre o1 = q_npre o2 /\ q_status o1 = q_status o2 /\ q_splits o1 = q_splits o2 /\
  q_counts o1 = q_counts o2 /\ q_tables o1 = q_tables o2 /\ q_table o1 = q_table o2 /\ q_fitted o1 = q_fitted o2.
Lemma done_same e o1 o2 d o1' o2' : q_par o1 = q_par o2 -> sb_fit_obj e o1 d = (o1', Ok tt) -> sb_fit_obj e o2 d = (o2', Ok tt) -> alike o1' o2'.
Proof.
  intros H H1 H2. destruct (fit_ok _ _ _ _ H1) as (f1 & st1 & ts1 & s1 & D1). destruct (fit_ok _ _ _ _ H2) as (f2 & st2 & ts2 & s2 & D2).
  assert (Es : s1 = s2).
  { pose proof (fd_pre _ _ _ _ _ _ _ _ D1) as [P1 Q1]. pose proof (fd_pre _ _ _ _ _ _ _ _ D2) as [P2 Q2]. rewrite <- H in P2, Q2. unfold prebinned in *.
    destruct (sb_user (q_par o1)); [rewrite Q1, Q2 by discriminate; reflexivity|]. rewrite P1 in P2. now injection P2. }
  subst s2. pose proof (fd_fit _ _ _ _ _ _ _ _ D1) as A. pose proof (fd_fit _ _ _ _ _ _ _ _ D2) as B. rewrite <- H, A in B. injection B as Ep <-.
  pose proof (fd_solve _ _ _ _ _ _ _ _ D1) as A1. rewrite (fd_solve _ _ _ _ _ _ _ _ D2) in A1. injection A1 as <-.
  assert (Et : ts1 = ts2).
  { apply nth_error_ext. intros i. pose proof (fd_pairs _ _ _ _ _ _ _ _ D1) as E1. rewrite <- (fd_pairs _ _ _ _ _ _ _ _ D2) in E1.
    pose proof (fd_len _ _ _ _ _ _ _ _ D1) as L1. pose proof (fd_len _ _ _ _ _ _ _ _ D2) as L2.
    pose proof (f_equal (fun l => nth_error l i) E1) as Ei. cbv beta in Ei. rewrite !nth_error_map in Ei.
    destruct (nth_error ts1 i) as [t1|] eqn:N1, (nth_error ts2 i) as [t2|] eqn:N2; cbn [option_map] in Ei; try discriminate; [|reflexivity].
    assert (exists s, nth_error (sd_X d) i = Some s) as [s Hs].
    { destruct (nth_error (sd_X d) i) eqn:N; [eauto|]. apply nth_error_None in N. assert (K : nth_error ts1 i <> None) by congruence. apply nth_error_Some in K. lia. }
    destruct (fd_each _ _ _ _ _ _ _ _ D1 i s t1 Hs N1) as [_ T1]. destruct (fd_each _ _ _ _ _ _ _ _ D2 i s t2 Hs N2) as [_ T2].
    assert (Ei' : pair_of t1 = pair_of t2) by congruence. rewrite T1, T2, <- H, Ei'. reflexivity. }
  subst ts2. unfold alike.
  rewrite (fd_nscen _ _ _ _ _ _ _ _ D1), (fd_nscen _ _ _ _ _ _ _ _ D2), (fd_npre _ _ _ _ _ _ _ _ D1), (fd_npre _ _ _ _ _ _ _ _ D2),
    (fd_status _ _ _ _ _ _ _ _ D1), (fd_status _ _ _ _ _ _ _ _ D2), (fd_splits _ _ _ _ _ _ _ _ D1), (fd_splits _ _ _ _ _ _ _ _ D2),
    (fd_counts _ _ _ _ _ _ _ _ D1), (fd_counts _ _ _ _ _ _ _ _ D2), (fd_tables _ _ _ _ _ _ _ _ D1), (fd_tables _ _ _ _ _ _ _ _ D2),
    (fd_table _ _ _ _ _ _ _ _ D1), (fd_table _ _ _ _ _ _ _ _ D2), (fd_fitted _ _ _ _ _ _ _ _ D1), (fd_fitted _ _ _ _ _ _ _ _ D2), H, Ep.
  intuition reflexivity.
Qed.
