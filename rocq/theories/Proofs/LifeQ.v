(** Refitting: two objects with the same parameters behave the same after a fit, whatever happened before. *)
From Coq Require Import List ZArith QArith Bool Arith Lia.
From Verif Require Import Model.Arr Model.Core Model.Lifecycle Spec.CoreSpec Spec.LifecycleSpec
  Proofs.ArrP Proofs.CoreP Proofs.FitP Proofs.CoreFinal Proofs.LifeP.
Import ListNotations.
Open Scope Z_scope.

Lemma fit_table e d o o' : fit e d o = (o', Ok tt) ->
  exists t a b s c', o_table o' = Some t /\ t_built t = false /\ t_analyzed t = false /\ t_splits t = s /\ t_splits_c t = c' /\
    t_special t = e_special e /\ t_special_c t = e_special_c e /\ t_nev t = a /\ t_ev t = b /\ o_counts o' = Some (a, b) /\
    t_int t = d_int d /\ t_others_c t = PyList /\ t_user t = o_user o' /\ o_fitted o' = true /\ o_splits o' = Some (c', s) /\
    ((forall c, o_user o <> Some (c, [])) -> c' = NdArray).
Proof.
  unfold fit. destruct (params_ok o); cbn [negb]; [|discriminate].
  assert (R : forall so o1 s0, refine_and_optimise e d so o1 s0 = (o', Ok tt) ->
    exists t a b s c', o_table o' = Some t /\ t_built t = false /\ t_analyzed t = false /\ t_splits t = s /\ t_splits_c t = c' /\
    t_special t = e_special e /\ t_special_c t = e_special_c e /\ t_nev t = a /\ t_ev t = b /\ o_counts o' = Some (a, b) /\
    t_int t = d_int d /\ t_others_c t = PyList /\ t_user t = o_user o' /\ o_fitted o' = true /\ o_splits o' = Some (c', s) /\
    ((forall c, o_user o <> Some (c, [])) -> c' = NdArray)).
  { intros so o1 s0. unfold refine_and_optimise. destruct (prebins_st _ _ _ _ _ _) as [[ps q]|]; [|discriminate].
    destruct q as [[[s a] b]|k]; [|discriminate]. intros H. apply optimise_table in H.
    destruct H as (t & a' & b' & s' & c' & P). exists t, a', b', s', c'. decompose [and] P. repeat split; try assumption; try congruence.
    intros _. auto. }
  destruct (o_user o) as [[c [|u us]]|].
  - intros H. apply optimise_table in H. destruct H as (t & a' & b' & s' & c' & P). exists t, a', b', s', c'.
    decompose [and] P. repeat split; try assumption; try congruence. intros K. destruct (K c). reflexivity.
  - destruct (negb (distinct (u :: us))); [discriminate|]. apply R.
  - destruct (e_prebin _ _); [|discriminate]. apply R.
Qed.

(** Equal up to the number of refinements and the min-one flag. *)
Definition sim (o1 o2 : obj) : Prop :=
  o_user o1 = o_user o2 /\ o_fixed o1 = o_fixed o2 /\ o_spec o1 = o_spec o2 /\ o_miss o1 = o_miss o2 /\
  o_status o1 = o_status o2 /\ o_splits o1 = o_splits o2 /\ o_counts o1 = o_counts o2 /\ o_table o1 = o_table o2 /\
  o_fitted o1 = o_fitted o2.

Lemma no_zero nev : forall ev, length nev = length ev ->
  any (map2 (fun a b => (a =? 0) || (b =? 0)) nev ev) = false -> ~ In 0 nev /\ ~ In 0 ev.
Proof.
  induction nev as [|a r IH]; intros [|b s] L H; try discriminate; [split; intros []|].
  cbn [map2 any existsb] in H. apply orb_false_iff in H. destruct H as [H1 H2]. apply orb_false_iff in H1.
  destruct H1 as [A B]. apply Z.eqb_neq in A. apply Z.eqb_neq in B. injection L as L.
  destruct (IH s L H2) as [P Q]. split; intros [K|K]; congruence || tauto.
Qed.

Lemma prebins_sim wu d data fuel : forall u f n1 b1 n2 b2 s ps1 r,
  prebins_st fuel wu d data (mkP u f n1 b1) s = Some (ps1, r) ->
  exists n b, prebins_st fuel wu d data (mkP u f n2 b2) s = Some (mkP (p_user ps1) (p_fixed ps1) n b, r) /\
    (forall s' nev ev, r = Ok (s', nev, ev) -> refines d = true \/ p_flag ps1 = b \/ (~ In 0 nev /\ ~ In 0 ev)).
Proof.
  induction fuel as [|fuel IH]; intros u f n1 b1 n2 b2 s ps1 r H; [discriminate|].
  destruct s as [|x s].
  - injection H as <- <-. exists n2, b2. split; [reflexivity|]. intros s' nev ev H. injection H as <- <- <-.
    right. right. split; intros [].
  - revert H. cbn [prebins_st]. cbv zeta.
    set (nev := counts _ _ true _ _). set (ev := counts _ _ false _ _). set (m := map2 _ nev ev). set (ms := mask_splits m).
    destruct (any m) eqn:M.
    + destruct (refines d) eqn:RD.
      * cbn [p_fixed p_user p_nref p_flag]. destruct f as [[np f]|].
        -- destruct (any (mand f ms)).
           ++ intros H. injection H as <- <-. eexists _, _. split; [reflexivity|]. intros s' a b K. discriminate K.
           ++ intros H. destruct (IH _ _ _ _ (S n2) b2 _ _ _ H) as (n & b & E & K). exists n, b. split; [exact E|exact K].
        -- intros H. destruct (IH _ _ _ _ (S n2) b2 _ _ _ H) as (n & b & E & K). exists n, b. split; [exact E|exact K].
      * intros H. injection H as <- <-. eexists _, _. split; [reflexivity|]. intros s' a b K. right. left. reflexivity.
    + intros H. injection H as <- <-. eexists _, _. split; [reflexivity|]. intros s' a b K. injection K as <- <- <-.
      right. right. apply no_zero; [|exact M]. unfold nev, ev, counts. rewrite !map_length. reflexivity.
Qed.

(** same error and, on success, the same results; and pointwise similarity is kept *)
Definition agree (o1 o2 : obj) (q1 q2 : obj * res unit) : Prop :=
  snd q1 = snd q2 /\ (snd q1 = Ok tt -> sim (fst q1) (fst q2)) /\ (sim o1 o2 -> sim (fst q1) (fst q2)).

Lemma post_agree e x so o1 o2 sol sp nev ev c s :
  o_user o1 = o_user o2 -> o_fixed o1 = o_fixed o2 -> o_spec o1 = o_spec o2 -> o_miss o1 = o_miss o2 ->
  o_status o1 = o_status o2 -> o_splits o1 = o_splits o2 ->
  agree o1 o2 (post e x so o1 sol sp nev ev c s) (post e x so o2 sol sp nev ev c s).
Proof.
  intros U F S M St Sp. unfold post. rewrite <- S, <- M.
  assert (N : forall k : exn, agree o1 o2 (o1, Err k) (o2, Err k)).
  { intros k. split; [reflexivity|]. split; [discriminate|]. cbn [fst]. tauto. }
  destruct (o_spec o1) as [p|] eqn:E1; [|apply N]. destruct (o_miss o1) as [m|] eqn:E2; [|apply N].
  destruct (bin_info_1 _ _ _ _ _ _) as [a|]; [|apply N].
  destruct (bin_info_1 _ _ _ _ _ _) as [b|]; [|apply N].
  destruct (map num (x_clean so)) as [|z zs].
  - split; [reflexivity|]. split; [discriminate|]. cbn [fst]. unfold sim. cbn. tauto.
  - split; [reflexivity|]. cbn [fst snd]. unfold sim. cbn. rewrite E1, E2, <- U, <- S, <- M. split; tauto.
Qed.
Lemma optimise_agree e x so o1 o2 sp nev ev c :
  o_user o1 = o_user o2 -> o_fixed o1 = o_fixed o2 -> o_spec o1 = o_spec o2 -> o_miss o1 = o_miss o2 ->
  (length nev <= 1)%nat \/ refines (e_div e) = true \/ o_flag o1 = o_flag o2 \/
    (min_one_neutral e /\ ~ In 0 nev /\ ~ In 0 ev) ->
  agree o1 o2 (optimise e x so o1 sp nev ev c) (optimise e x so o2 sp nev ev c).
Proof.
  intros U F S M K. unfold optimise.
  assert (P : forall st c s sol, agree o1 o2 (post e x so (set_result o1 st c s) sol sp nev ev c s)
                                     (post e x so (set_result o2 st c s) sol sp nev ev c s)).
  { intros st c' s sol. destruct (post_agree e x so (set_result o1 st c' s) (set_result o2 st c' s) sol sp nev ev c' s)
      as (A & B & C); try assumption; try reflexivity.
    split; [exact A|]. split; [exact B|]. intros H. apply C. unfold sim in *. cbn. tauto. }
  destruct (Nat.leb_spec (length nev) 1) as [L|L]; [apply P|].
  assert (E : e_solver e (option_map snd (o_fixed o1)) (negb (refines (e_div e)) && o_flag o1) (length (d_x x)) nev ev =
              e_solver e (option_map snd (o_fixed o2)) (negb (refines (e_div e)) && o_flag o2) (length (d_x x)) nev ev).
  { rewrite <- F. destruct K as [K|[K|[K|(K & Z1 & Z2)]]]; [lia|rewrite K; reflexivity|rewrite K; reflexivity|].
    destruct K as [K|K]; [rewrite K; reflexivity|].
    destruct (refines (e_div e)); [reflexivity|]. cbn [negb andb].
    destruct (o_flag o1), (o_flag o2); try reflexivity; [|symmetry]; apply K; assumption. }
  rewrite <- E. destruct (e_solver _ _ _ _ _ _) as [[st sol]|k].
  - apply P.
  - split; [reflexivity|]. split; [discriminate|]. cbn [fst]. tauto.
Qed.
Lemma refine_agree e x so o1 o2 sp : min_one_neutral e -> o_user o1 = o_user o2 -> o_fixed o1 = o_fixed o2 ->
  agree o1 o2 (refine_and_optimise e x so o1 sp) (refine_and_optimise e x so o2 sp).
Proof.
  intros MN U F. unfold refine_and_optimise.
  destruct (prebins_st _ _ _ _ (mkP (o_user o1) (o_fixed o1) (o_nref o1) (o_flag o1)) sp) as [[ps r]|] eqn:E.
  - destruct (prebins_sim _ _ _ _ _ _ _ _ (o_nref o2) (o_flag o2) _ _ _ E) as (n & b & E2 & K).
    rewrite <- U, <- F, E2. cbn [p_user p_fixed p_nref p_flag].
    set (o1' := mkO _ _ _ (p_flag ps) _ _ _ _ _ _ _). set (o2' := mkO _ _ _ b _ _ _ _ _ _ _).
    assert (Sm : sim o1 o2 -> sim o1' o2'). { unfold sim. cbn. tauto. }
    destruct r as [[[s nev] ev]|k].
    + destruct (optimise_agree e x so o1' o2' s nev ev NdArray) as (A & B & C); try reflexivity.
      { destruct (K _ _ _ eq_refl) as [H|[H|H]]; [right; left; exact H|right; right; left; exact H|].
        right. right. right. split; [exact MN|exact H]. }
      split; [exact A|]. split; [exact B|]. intros H. apply C. apply Sm. exact H.
    + split; [reflexivity|]. split; [discriminate|]. exact Sm.
  - destruct (prebins_st _ _ _ _ (mkP (o_user o2) (o_fixed o2) (o_nref o2) (o_flag o2)) sp) as [[ps2 r2]|] eqn:E2.
    + destruct (prebins_sim _ _ _ _ _ _ _ _ (o_nref o1) (o_flag o1) _ _ _ E2) as (n & b & E3 & _).
      rewrite <- U, <- F in E3. congruence.
    + split; [reflexivity|]. split; [discriminate|]. cbn [fst]. tauto.
Qed.
Lemma fit_agree e x o1 o2 : min_one_neutral e -> o_user o1 = o_user o2 -> o_fixed o1 = o_fixed o2 ->
  (forall c, o_user o1 <> Some (c, [])) \/ sim o1 o2 ->
  agree o1 o2 (fit e x o1) (fit e x o2).
Proof.
  intros MN U F H. unfold fit. unfold params_ok. rewrite <- U, <- F.
  assert (N : forall k : exn, agree o1 o2 (o1, Err k) (o2, Err k)).
  { intros k. split; [reflexivity|]. split; [discriminate|]. cbn [fst]. tauto. }
  match goal with |- agree _ _ (if negb ?b then _ else _) _ => destruct b; cbn [negb]; [|apply N] end.
  destruct (o_user o1) as [[c [|u us]]|] eqn:E1.
  - destruct H as [H|H]; [destruct (H c); reflexivity|]. apply optimise_agree.
    + rewrite E1. exact U.
    + exact F.
    + apply H.
    + apply H.
    + left. cbn. lia.
  - destruct (negb (distinct (u :: us))); [apply N|].
    match goal with |- agree _ _ (refine_and_optimise _ _ _ ?a _) (refine_and_optimise _ _ _ ?b _) =>
      destruct (refine_agree e x (split_masks (e_special e) (d_x x) (d_y x) (d_w x)) a b (sorted_splits (u :: us)) MN eq_refl)
        as (A & B & C) end.
    { cbn. reflexivity. }
    split; [exact A|]. split; [exact B|]. intros K. apply C. revert K. unfold sim. cbn. tauto.
  - destruct (e_prebin _ _) as [s0|k]; [|apply N].
    apply refine_agree; [exact MN|rewrite E1; exact U|exact F].
Qed.

Lemma transform_sim e o1 o2 m xs : sim o1 o2 -> transform e o1 m xs = transform e o2 m xs.
Proof.
  intros (_ & _ & _ & _ & _ & S & C & _ & F). unfold transform. rewrite F, S, C. reflexivity.
Qed.
Lemma on_table_sim o1 o2 fs f : sim o1 o2 ->
  snd (on_table (o1, fs) f) = snd (on_table (o2, fs) f) /\
  sim (fst (fst (on_table (o1, fs) f))) (fst (fst (on_table (o2, fs) f))) /\
  snd (fst (on_table (o1, fs) f)) = fs /\ snd (fst (on_table (o2, fs) f)) = fs.
Proof.
  intros H. pose proof H as (U & Fx & Sp & M & St & S & C & T & F). unfold on_table. cbn [fst snd]. rewrite <- F, <- T.
  destruct (o_fitted o1) eqn:E; cbn [negb fst snd]; [|split; [reflexivity|split; [exact H|split; reflexivity]]].
  destruct (o_table o1) as [t|] eqn:ET; [|cbn [fst snd]; split; [reflexivity|split; [exact H|split; reflexivity]]].
  destruct (f t) as [t' v]. cbn [fst snd]. split; [reflexivity|]. split; [|split; reflexivity].
  unfold sim. cbn. repeat split; assumption.
Qed.

(** every further call answers the same (information() aside, which prints the number of refinements) *)
Lemma step_sim e o1 o2 fs c : min_one_neutral e -> sim o1 o2 ->
  (c <> Information -> snd (step e (o1, fs) c) = snd (step e (o2, fs) c)) /\
  sim (fst (fst (step e (o1, fs) c))) (fst (fst (step e (o2, fs) c))) /\
  snd (fst (step e (o1, fs) c)) = snd (fst (step e (o2, fs) c)).
Proof.
  intros MN H. pose proof H as (U & Fx & Sp & M & St & S & C & T & F).
  destruct c; cbn [step fst snd].
  - destruct (fit_agree e d o1 o2 MN U Fx (or_intror H)) as (A & _ & B).
    destruct (fit e d o1) as [o1' r1], (fit e d o2) as [o2' r2]. cbn [fst snd] in *. subst r2.
    split; [reflexivity|]. split; [exact (B H)|reflexivity].
  - rewrite (transform_sim e o1 o2 m xs H). split; [reflexivity|]. split; [exact H|reflexivity].
  - rewrite F, S. split; [reflexivity|]. split; [exact H|reflexivity].
  - rewrite F, St. split; [reflexivity|]. split; [exact H|reflexivity].
  - rewrite F, T. split; [reflexivity|]. split; [exact H|reflexivity].
  - split; [intros K; contradiction K; reflexivity|]. split; [exact H|reflexivity].
  - unfold to_json. rewrite F, T.
    destruct (o_fitted o2); cbn [negb fst snd]; [|split; [reflexivity|split; [exact H|reflexivity]]].
    destruct (o_table o2) as [t|]; [|cbn; split; [reflexivity|split; [exact H|reflexivity]]].
    destruct (t_splits_c t); [cbn; split; [reflexivity|split; [exact H|reflexivity]]|].
    destruct (json_ok t); cbn [fst snd]; (split; [reflexivity|split; [exact H|reflexivity]]).
  - unfold read_json. rewrite T. destruct (fs p) as [[j|]|]; cbn [fst snd];
      (split; [reflexivity|]); (split; [|reflexivity]); unfold sim; cbn; repeat split; assumption.
  - split; [reflexivity|]. split; [|reflexivity]. unfold sim. cbn. repeat split; assumption.
  - destruct (on_table_sim o1 o2 fs (fun t => if valid then (flags t true (t_analyzed t), Ok VNone) else (t, Err ValueError)) H)
      as (A & B & E1 & E2). split; [intros _; exact A|]. split; [exact B|congruence].
  - match goal with |- (_ -> snd (on_table _ ?f) = _) /\ _ => destruct (on_table_sim o1 o2 fs f H) as (A & B & E1 & E2) end.
    split; [intros _; exact A|]. split; [exact B|congruence].
  - match goal with |- (_ -> snd (on_table _ ?f) = _) /\ _ => destruct (on_table_sim o1 o2 fs f H) as (A & B & E1 & E2) end.
    split; [intros _; exact A|]. split; [exact B|congruence].
  - match goal with |- (_ -> snd (on_table _ ?f) = _) /\ _ => destruct (on_table_sim o1 o2 fs f H) as (A & B & E1 & E2) end.
    split; [intros _; exact A|]. split; [exact B|congruence].
  - match goal with |- (_ -> snd (on_table _ ?f) = _) /\ _ => destruct (on_table_sim o1 o2 fs f H) as (A & B & E1 & E2) end.
    split; [intros _; exact A|]. split; [exact B|congruence].
Qed.

Lemma exec_sim e h : min_one_neutral e -> forall o1 o2 fs, sim o1 o2 -> ~ In Information h ->
  snd (exec e (o1, fs) h) = snd (exec e (o2, fs) h).
Proof.
  intros MN. induction h as [|c h IH]; intros o1 o2 fs H NI; [reflexivity|].
  destruct (step_sim e o1 o2 fs c MN H) as (A & B & C). cbn [exec].
  destruct (step e (o1, fs) c) as [[o1' fs1] v1], (step e (o2, fs) c) as [[o2' fs2] v2]. cbn [fst snd] in *. subst fs2.
  assert (IH' := IH o1' o2' fs1 B (fun K => NI (or_intror K))).
  destruct (exec e (o1', fs1) h), (exec e (o2', fs1) h). cbn [snd] in *. subst.
  rewrite A; [reflexivity|]. intros ->. apply NI. left. reflexivity.
Qed.

Lemma C26_refit e o d o1 r1 o2 r2 : min_one_neutral e ->
  o_fixed o = None -> (forall c, o_user o <> Some (c, [])) ->
  fit e d o = (o1, r1) -> fit e d (new (o_user o) None) = (o2, r2) ->
  r1 = r2 /\ (r1 = Ok tt -> forall fs h, ~ In Information h -> snd (exec e (o1, fs) h) = snd (exec e (o2, fs) h)).
Proof.
  intros MN FX NU F1 F2.
  destruct (fit_agree e d o (new (o_user o) None) MN eq_refl FX (or_introl NU)) as (A & B & _).
  rewrite F1, F2 in A, B. cbn [fst snd] in A, B. split; [exact A|]. intros K fs h NI.
  apply exec_sim; [exact MN|apply B; exact K|exact NI].
Qed.

(** ** user_splits_fixed *)
Lemma prebins_fixed_np wu d data fuel : forall u f n b s ps r,
  prebins_st fuel wu d data (mkP u (Some (true, f)) n b) s = Some (ps, r) -> exists f', p_fixed ps = Some (true, f').
Proof.
  induction fuel as [|fuel IH]; intros u f n b s ps r H; [discriminate|].
  destruct s as [|x s]; [injection H as <- <-; exists f; reflexivity|].
  revert H. cbn [prebins_st]. cbv zeta. cbn [p_fixed p_user p_nref p_flag].
  destruct (any (map2 _ _ _)).
  - destruct (refines d).
    + destruct (any (mand f _)); [intros H; injection H as <- <-; exists f; reflexivity|]. apply IH.
    + intros H; injection H as <- <-. exists f. reflexivity.
  - intros H; injection H as <- <-. exists f. reflexivity.
Qed.
Lemma post_params e x so o sol sp nev ev c s : let o' := fst (post e x so o sol sp nev ev c s) in
  o_user o' = o_user o /\ o_fixed o' = o_fixed o.
Proof.
  unfold post. destruct (o_spec o), (o_miss o); try (split; reflexivity).
  destruct (bin_info_1 _ _ _ _ _ _); [|split; reflexivity]. destruct (bin_info_1 _ _ _ _ _ _); [|split; reflexivity].
  destruct (map num (x_clean so)); split; reflexivity.
Qed.
Lemma optimise_params e x so o sp nev ev c : let o' := fst (optimise e x so o sp nev ev c) in
  o_user o' = o_user o /\ o_fixed o' = o_fixed o.
Proof.
  unfold optimise. cbv zeta. destruct (_ <=? _)%nat.
  - apply (post_params e x so (set_result o 0 c sp)).
  - destruct (e_solver _ _ _ _ _ _) as [[st sol]|k]; [|split; reflexivity].
    apply (post_params e x so (set_result o st NdArray (select (init sol) sp))).
Qed.
Lemma C26_fixed e o d o1 r f c u : o_fixed o = Some (false, f) -> o_user o = Some (c, u) -> length u = length f ->
  distinct u = true -> fit e d o = (o1, r) -> (forall c', o_user o1 <> Some (c', [])) ->
  forall d', snd (fit e d' o1) = Err ValueError.
Proof.
  intros FX U L D H NE d'. unfold fit in H. unfold params_ok in H. rewrite FX, U, L, Nat.eqb_refl in H.
  cbn [negb orb andb] in H.
  assert (P : exists f', o_fixed o1 = Some (true, f')).
  { destruct u as [|x u].
    - destruct (optimise_params e d (split_masks (e_special e) (d_x d) (d_y d) (d_w d)) o [] [] [] c) as [U1 _].
      rewrite H in U1. cbn [fst] in U1. rewrite U in U1. destruct (NE c U1).
    - rewrite D in H. cbn [negb option_map snd] in H. unfold refine_and_optimise in H.
      cbn [o_user o_fixed o_nref o_flag] in H.
      destruct (prebins_st _ _ _ _ _ _) as [[ps q]|] eqn:E; [|injection H as <- <-; eexists; reflexivity].
      apply prebins_fixed_np in E. destruct E as [f' E]. exists f'.
      destruct q as [[[s a] b]|k]; [|injection H as <- <-; exact E].
      match type of H with optimise _ _ ?so ?o2 _ _ _ _ = _ => destruct (optimise_params e d so o2 s a b NdArray) as [_ F1] end.
      rewrite H in F1. cbn [fst o_fixed] in F1. rewrite F1. exact E. }
  destruct P as [f' P]. unfold fit, params_ok. rewrite P. destruct (o_user o1) as [[c1 u1]|] eqn:U1; [|reflexivity].
  destruct u1 as [|x u1]; [destruct (NE c1); reflexivity|].
  cbn [negb orb]. destruct f' as [|b f']; [cbn; reflexivity|]. cbn [length Nat.eqb andb negb]. reflexivity.
Qed.
