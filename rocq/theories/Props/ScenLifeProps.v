(** C88: SBOptimalBinning objects over any history of calls. *)
From Coq Require Import List ZArith Bool Arith Lia QArith Reals.
From Verif Require Import Model.Arr Model.Core Model.CP Model.Multi Model.Metrics Model.Lifecycle Model.Scenario Model.ScenLife
  Spec.CoreSpec Spec.CPSpec Spec.ScenarioSpec Spec.ScenLifeSpec Proofs.ArrP Proofs.CoreP Proofs.FitP Proofs.CoreFinal Proofs.CPTable Proofs.MultiP Proofs.MetricsFinal Proofs.LifeP Proofs.LifeR Proofs.ScenP Proofs.ScenQ
  Proofs.ScenLifeP Proofs.ScenLifeQ Proofs.ScenLifeR Proofs.ScenLifeS Proofs.ScenLifeT Props.ScenarioProps.
Import ListNotations.
Open Scope Z_scope.

(** Methods that need a fitted object raise NotFittedError exactly until a fit returned normally or read_json was called. *)
Theorem C88_not_fitted_iff : forall e user fixed fs h w l c, sb_exec e (sbo_new user fixed, fs) h = (w, l) -> needs_fit c ->
  (ask e w c = Err NotFitted <-> ~ established e (sbo_new user fixed, fs) h).
Proof.
  intros e user fixed fs h w l c H N. rewrite (needs_fit_nf e w c N). pose proof (exec_flag e h (sbo_new user fixed, fs)) as F. rewrite H in F. cbn [fst sbo_new q_fitted] in F.
  destruct (q_fitted (fst w)); split; try congruence.
  - intros K. exfalso. apply K. destruct (proj1 F eq_refl) as [A|A]; [discriminate A|exact A].
  - intros _ K. assert (false = true) by (apply F; now right). discriminate.
Qed.
Print Assumptions C88_not_fitted_iff.

(** fit_transform is fit followed by transform. *)
Theorem C88_fit_transform : forall e w d xs m,
  sb_step e w (SFitTransform d xs m) =
  (let fitted := sb_step e w (SFit d) in
   (fst fitted, match snd fitted with Err k => Err k | Ok _ => ask e (fst fitted) (STransform xs m) end)).
Proof.
  intros e [o fs] d xs m. unfold ask. cbn [sb_step]. destruct (sb_fit_obj e o d) as [o' [[]|k]]; reflexivity.
Qed.
Print Assumptions C88_fit_transform.

(** Asking changes nothing: after transform, an attribute, a table, information or to_json every later answer is the same. *)
Theorem C88_asking_changes_nothing : forall e w c c', only_asks c -> (forall p, c' <> SReadJson p) -> ask e (fst (sb_step e w c)) c' = ask e w c'.
Proof.
  intros e [o fs] c c' Hc Hr. unfold ask.
  assert (G : forall fs1, snd (sb_step e (o, fs1) c') = snd (sb_step e (o, fs) c')).
  { intros fs1. destruct c'; cbn [sb_step snd]; try reflexivity.
    - destruct (sb_fit_obj e o d); reflexivity.
    - destruct (sb_fit_obj e o d); reflexivity.
    - unfold sb_to_json. destruct p as [p|]; [|reflexivity]. destruct (negb (q_fitted o)); [reflexivity|]. destruct (q_table o) as [t|]; [|reflexivity]. destruct (json_ok t); reflexivity.
    - exfalso. exact (Hr p eq_refl). }
  assert (C : exists fs1, fst (sb_step e (o, fs) c) = (o, fs1)).
  { destruct c; cbn [only_asks] in Hc; try contradiction; cbn [sb_step fst]; eauto. destruct (sb_to_json o fs p). cbn [fst]. eauto. }
  destruct C as [fs1 ->]. apply G.
Qed.
Print Assumptions C88_asking_changes_nothing.

(** With user_splits_fixed None, fit answers as on a new object. When a fit returns normally (whatever the parameters), it would have on a
    new object as well, and all answers from there on are those of that object, up to the number of refinements that information prints. *)
Theorem C88_fit_forgets_history : forall e user fixed fs h w l, sb_exec e (sbo_new user fixed, fs) h = (w, l) ->
  let new := (sbo_new user fixed, snd w) in
  (fixed = None -> forall d, ask e w (SFit d) = ask e new (SFit d)) /\
  (forall d, fits_data e w d -> fits_data e new d /\
     forall c, fit_of_call c d -> ask e w c = ask e new c /\
       forall later, Forall2 same_answer (snd (sb_exec e (fst (sb_step e w c)) later)) (snd (sb_exec e (fst (sb_step e new c)) later))).
Proof.
  intros e user fixed fs h w l H new. assert (P : par_ok user fixed (q_par (fst w))).
  { pose proof (exec_par_ok user fixed e h (sbo_new user fixed, fs) (or_introl eq_refl)) as P. rewrite H in P. exact P. }
  destruct w as [o f]. cbn [fst snd] in *. split.
  - intros -> d. assert (E : q_par o = sb_new user None).
    { pose proof (exec_par_ok user None e h (sbo_new user None, fs) (or_introl eq_refl)) as P'.
      assert (G : forall w0, sb_fixed (q_par (fst w0)) = None -> forall h0, sb_fixed (q_par (fst (fst (sb_exec e w0 h0)))) = None).
      { clear. intros w0 N h0. revert w0 N. induction h0 as [|c h0 IH]; intros w0 N; [exact N|]. rewrite exec_cons. cbn [fst]. apply IH. destruct w0 as [o0 f0]. cbn [fst] in N.
        destruct c; cbn [sb_step fst]; try exact N.
        - destruct (sb_fit_obj e o0 d) as [o' r] eqn:Ef. exact (proj1 (proj2 (fit_par _ _ _ _ _ Ef) N)).
        - destruct (sb_fit_obj e o0 d) as [o' r] eqn:Ef. exact (proj1 (proj2 (fit_par _ _ _ _ _ Ef) N)).
        - destruct (sb_to_json o0 f0 p). exact N.
        - unfold sb_read_json. destruct (f0 p) as [[j|]|]; exact N. }
      pose proof (G (sbo_new user None, fs) eq_refl h) as N. rewrite H in N. cbn [fst] in N.
      destruct P as [P|P]; [exact P|]. unfold sb_params_ok in P. rewrite N in P. discriminate. }
    unfold ask. cbn [sb_step]. pose proof (fit_res e o (sbo_new user None) d E) as R.
    unfold new. cbn [sb_step]. destruct (sb_fit_obj e o d) as [o1 r1], (sb_fit_obj e (sbo_new user None) d) as [o2 r2]. cbn [snd] in *. now subst r2.
  - intros d F. apply fits_iff in F. cbn [fst] in F. destruct (sb_fit_obj e o d) as [o1 r1] eqn:E1. cbn [snd] in F. subst r1.
    assert (E : q_par o = q_par (sbo_new user fixed)).
    { destruct P as [P|P]; [exact P|]. apply fit_params in E1. congruence. }
    pose proof (fit_res e o (sbo_new user fixed) d E) as R. rewrite E1 in R. cbn [snd] in R. destruct (sb_fit_obj e (sbo_new user fixed) d) as [o2 r2] eqn:E2. cbn [snd] in R. subst r2.
    pose proof (done_same _ _ _ _ _ _ E E1 E2) as A. split; [apply fits_iff; unfold new; cbn [fst]; now rewrite E2|].
    intros c C. assert (S : fst (sb_step e (o, f) c) = (o1, f) /\ fst (sb_step e new c) = (o2, f) /\ ask e (o, f) c = ask e new c).
    { unfold ask, new. destruct C as [-> |(xs & m & ->)]; cbn [sb_step]; rewrite E1, E2; cbn [fst snd]; repeat split. now rewrite (alike_transform _ _ _ _ _ A). }
    destruct S as (S1 & S2 & S3). split; [exact S3|]. intros later. rewrite S1, S2. apply alike_exec. exact A.
Qed.
Print Assumptions C88_fit_forgets_history.

(** A fit that returns normally, whatever was called before: the prebinning method got the pooled clean records; the fit is that of C65 (so all its
    theorems apply) and status, splits, the table and the scenario tables show it. *)
Theorem C88_results : forall e user fixed fs h w l d, sb_exec e (sbo_new user fixed, fs) h = (w, l) -> (forall s, In s (sd_X d) -> scen_valid s) -> fits_data e w d ->
  let w' := fst (sb_step e w (SFit d)) in
  exists splits0 st f,
    prebinned e user d splits0 /\
    snd (sb_fit (scen_env e splits0 (solutions e)) (sb_new user fixed) (sd_X d) (sd_w d)) = Some (Ok f) /\
    l_solve e (sf_problem f) = Ok (st, sf_solution f) /\
    ask e w' SStatus = Ok (SVStatus (Some st)) /\ ask e w' SSplits = Ok (SVSplits (Some (sf_splits f))) /\
    (exists t, ask e w' STable = Ok (SVTable (Some t)) /\ t_special t = l_sp e /\ t_splits t = sf_splits f /\ t_nev t = sf_nev f /\ t_ev t = sf_ev f /\
       least (fun v => exists s, In s (sd_X d) /\ clean_value (l_sp e) s v) (t_min t) /\
       greatest (fun v => exists s, In s (sd_X d) /\ clean_value (l_sp e) s v) (t_max t)) /\
    (forall i s, nth_error (sd_X d) i = Some s -> exists t p, ask e w' (SScenTable (Some (Z.of_nat i))) = Ok (SVTable (Some t)) /\
       nth_error (sf_tables f) i = Some p /\ t_special t = l_sp e /\ t_splits t = sf_splits f /\ (t_nev t, t_ev t) = p /\
       least (clean_value (l_sp e) s) (t_min t) /\ greatest (clean_value (l_sp e) s) (t_max t)) /\
    (forall id, (forall i, (i < length (sd_X d))%nat -> id <> Some (Z.of_nat i)) -> ask e w' (SScenTable id) = Err ValueError).
Proof.
  intros e user fixed fs h w l d H HV F w'. assert (P : par_ok user fixed (q_par (fst w))).
  { pose proof (exec_par_ok user fixed e h (sbo_new user fixed, fs) (or_introl eq_refl)) as P. rewrite H in P. exact P. }
  apply fits_iff in F. destruct w as [o fl]. cbn [fst] in *. destruct (sb_fit_obj e o d) as [o' r] eqn:E. cbn [snd] in F. subst r.
  assert (Ep : q_par o = sb_new user fixed) by (destruct P as [P|P]; [exact P|apply fit_params in E; congruence]).
  assert (Ew : w' = (o', fl)) by (unfold w'; cbn [sb_step]; now rewrite E). clearbody w'. subst w'.
  destruct (fit_ok _ _ _ _ E) as (f & st & ts & s0 & D). exists s0, st, f.
  pose proof (fd_fit _ _ _ _ _ _ _ _ D) as Df. rewrite Ep in Df.
  assert (NE : ts <> []).
  { intros ->. pose proof (fd_len _ _ _ _ _ _ _ _ D) as L. apply sb_fit_inv in Df. pose proof (ss_X _ _ _ _ _ Df). destruct (sd_X d); [congruence|discriminate]. }
  assert (Each : forall i t, nth_error ts i = Some t -> exists s, nth_error (sd_X d) i = Some s /\ t_special t = l_sp e /\ t_splits t = sf_splits f /\
            least (clean_value (l_sp e) s) (t_min t) /\ greatest (clean_value (l_sp e) s) (t_max t)).
  { intros i t Ht. assert (exists s, nth_error (sd_X d) i = Some s) as [s Hs].
    { destruct (nth_error (sd_X d) i) eqn:N; [eauto|]. apply nth_error_None in N. assert (K : nth_error ts i <> None) by congruence. apply nth_error_Some in K.
      rewrite (fd_len _ _ _ _ _ _ _ _ D) in K. lia. }
    exists s. split; [exact Hs|]. destruct (fd_each _ _ _ _ _ _ _ _ D i s t Hs Ht) as [N1 N2]. rewrite N2. cbn [the_scen_table t_special t_splits t_min t_max].
    destruct (HV s (nth_error_In _ _ Hs)) as [L _]. destruct (clean_records_spec (l_sp e) s L) as [C _].
    split; [reflexivity|]. split; [reflexivity|]. split; [eapply least_ext; [exact C|now apply zmin_least]|eapply greatest_ext; [exact C|now apply zmax_greatest]]. }
  assert (Vals : forall v, (exists t, In t ts /\ (t_min t = v \/ t_max t = v)) -> exists s, In s (sd_X d) /\ clean_value (l_sp e) s v).
  { intros v (t & Ht & Hv). apply In_nth_error in Ht. destruct Ht as [i Hi]. destruct (Each i t Hi) as (s & Hs & _ & _ & [A _] & [B _]). exists s. split; [eapply nth_error_In; exact Hs|].
    destruct Hv as [<-|<-]; assumption. }
  assert (Tab : forall s v, In s (sd_X d) -> clean_value (l_sp e) s v -> exists t, In t ts /\ t_min t <= v <= t_max t).
  { intros s v Hs Hv. apply In_nth_error in Hs. destruct Hs as [i Hi]. destruct (nth_error ts i) as [t|] eqn:N.
    - destruct (Each i t N) as (s' & Hs' & _ & _ & [_ A] & [_ B]). rewrite Hi in Hs'. injection Hs' as <-. exists t. split; [eapply nth_error_In; exact N|]. split; [apply A|apply B]; exact Hv.
    - apply nth_error_None in N. rewrite (fd_len _ _ _ _ _ _ _ _ D) in N. assert (K : nth_error (sd_X d) i <> None) by congruence. apply nth_error_Some in K. lia. }
  assert (M1 : map (fun t => (t_min t, t_int t)) ts <> []) by (intros E1; apply map_eq_nil in E1; contradiction).
  assert (M2 : map (fun t => (t_max t, t_int t)) ts <> []) by (intros E1; apply map_eq_nil in E1; contradiction).
  split; [|split; [rewrite Df; reflexivity|]]. { pose proof (proj1 (fd_pre _ _ _ _ _ _ _ _ D)) as Q. rewrite Ep in Q. exact Q. }
  split; [exact (fd_solve _ _ _ _ _ _ _ _ D)|].
  unfold ask. cbn [sb_step snd]. unfold sb_guard, scen_tab. rewrite (fd_fitted _ _ _ _ _ _ _ _ D), (fd_status _ _ _ _ _ _ _ _ D), (fd_splits _ _ _ _ _ _ _ _ D), (fd_table _ _ _ _ _ _ _ _ D), (fd_nscen _ _ _ _ _ _ _ _ D), (fd_tables _ _ _ _ _ _ _ _ D).
  cbn [negb]. split; [reflexivity|]. split; [reflexivity|]. split; [|split].
  - eexists. split; [reflexivity|]. cbn [main_table t_special t_splits t_nev t_ev t_min t_max fst snd]. repeat (split; [reflexivity|]). split.
    + destruct (extreme_least _ M1) as [A B]. rewrite map_map in A. cbn [fst] in A. split.
      * apply Vals. apply in_map_iff in A. destruct A as (t & A1 & A2). exists t. auto.
      * intros v (s & Hs & Hv). destruct (Tab s v Hs Hv) as (t & Ht & Hr). apply Z.le_trans with (t_min t); [|lia]. apply B. rewrite map_map. cbn [fst]. now apply in_map.
    + destruct (extreme_greatest _ M2) as [A B]. rewrite map_map in A. cbn [fst] in A. split.
      * apply Vals. apply in_map_iff in A. destruct A as (t & A1 & A2). exists t. auto.
      * intros v (s & Hs & Hv). destruct (Tab s v Hs Hv) as (t & Ht & Hr). apply Z.le_trans with (t_max t); [lia|]. apply B. rewrite map_map. cbn [fst]. now apply in_map.
  - intros i s Hs. assert (Hi : (i < length (sd_X d))%nat) by (apply nth_error_Some; congruence). rewrite <- (fd_len _ _ _ _ _ _ _ _ D) in Hi.
    destruct (nth_error ts i) as [t|] eqn:N; [|apply nth_error_None in N; lia]. destruct (Each i t N) as (s' & Hs' & A & B & C1 & C2). rewrite Hs in Hs'. injection Hs' as <-.
    exists t, (pair_of t). assert (Z1 : (Z.of_nat i <? 0) = false) by (apply Z.ltb_ge; lia). rewrite Z1.
    assert (Z2 : (Z.of_nat (length (sd_X d)) <=? Z.of_nat i) = false) by (apply Z.leb_gt; rewrite (fd_len _ _ _ _ _ _ _ _ D) in Hi; lia). rewrite Z2, Nat2Z.id, N.
    split; [reflexivity|]. split; [rewrite <- (fd_pairs _ _ _ _ _ _ _ _ D), nth_error_map, N; reflexivity|]. split; [exact A|]. split; [exact B|]. split; [reflexivity|]. auto.
  - intros id Hid. destruct id as [i|]; [|reflexivity]. destruct (i <? 0) eqn:Z1; [reflexivity|]. apply Z.ltb_ge in Z1.
    destruct (Z.of_nat (length (sd_X d)) <=? i) eqn:Z2; [reflexivity|]. exfalso. apply Z.leb_gt in Z2. apply (Hid (Z.to_nat i)); [lia|]. f_equal. lia.
Qed.
Print Assumptions C88_results.

(** ... the prebinning method gets, scenario after scenario, every clean record once, each with the weight of its scenario. *)
Theorem C88_prebinning_input : forall e d splits0, (forall s, In s (sd_X d) -> scen_valid s) ->
  prebinned e None d splits0 <->
  l_prebin e (flat_map (clean_records (l_sp e)) (sd_X d))
    (option_map (fun v => concat (map2 (fun s q => repeat q (length (clean_records (l_sp e) s))) (sd_X d) v)) (sd_w d)) = Ok splits0.
Proof.
  intros e d s0 HV. unfold prebinned.
  assert (A : pooled (l_sp e) (sd_X d) = flat_map (clean_records (l_sp e)) (sd_X d)).
  { unfold pooled. rewrite flat_map_concat_map. f_equal. apply map_ext_in. intros s Hs. apply scen_data_records, HV, Hs. }
  assert (B : pooled_weights (l_sp e) (sd_X d) (sd_w d) = option_map (fun v => concat (map2 (fun s q => repeat q (length (clean_records (l_sp e) s))) (sd_X d) v)) (sd_w d)).
  { assert (G : forall X, (forall s, In s X -> scen_valid s) -> forall v : list Q, map2 (fun s q => repeat q (length (x_clean (scen_split (l_sp e) s)))) X v = map2 (fun s q => repeat q (length (clean_records (l_sp e) s))) X v).
    { induction X as [|s X IH]; intros HX [|q v]; try reflexivity. cbn [map2]. rewrite (clean_len (l_sp e) s (HX s (or_introl eq_refl))), (IH (fun s' Hs => HX s' (or_intror Hs))). reflexivity. }
    unfold pooled_weights. destruct (sd_w d) as [v|]; [|reflexivity]. cbn [option_map]. now rewrite (G _ HV). }
  now rewrite A, B.
Qed.
Print Assumptions C88_prebinning_input.

(** transform after such a fit: the index of a value is its row, WoE and event rate are those displayed in that row of the table. *)
Theorem C88_transform_rows : forall e user fixed fs h w l d, lenv_ok e -> sb_exec e (sbo_new user fixed, fs) h = (w, l) ->
  (forall s, In s (sd_X d) -> scen_valid s) -> fits_data e w d ->
  let w' := fst (sb_step e w (SFit d)) in
  exists t, ask e w' STable = Ok (SVTable (Some t)) /\ nondecreasing (t_splits t) /\
    (forall xs ks, Forall2 (row_of (t_splits t) (l_sp e)) xs ks ->
       ask e w' (STransform xs (SIndices Empirical Empirical)) = Ok (SVAnswer (SAInd (map Z.of_nat ks)))) /\
    (forall b ms mm xs ks, Forall2 (fun x k => row_of (t_splits t) (l_sp e) x k /\ ((k < S (length (t_splits t)))%nat \/ (ms = Empirical /\ mm = Empirical))) xs ks ->
       exists vs, Forall2 (fun k v => nth_error (match b with BWoe => woe (t_nev t) (t_ev t) | BEventRate => event_rate (t_nev t) (t_ev t) end) k = Some v) ks vs /\
                  ask e w' (STransform xs (SValue b ms mm)) = Ok (SVAnswer (SAVal vs))).
Proof.
  intros e user fixed fs h w l d K H HV F w'. assert (P : par_ok user fixed (q_par (fst w))).
  { pose proof (exec_par_ok user fixed e h (sbo_new user fixed, fs) (or_introl eq_refl)) as P. rewrite H in P. exact P. }
  apply fits_iff in F. destruct w as [o fl]. cbn [fst] in *. destruct (sb_fit_obj e o d) as [o' r] eqn:E. cbn [snd] in F. subst r.
  assert (Ew : w' = (o', fl)) by (unfold w'; cbn [sb_step]; now rewrite E). clearbody w'. subst w'.
  destruct (fit_ok _ _ _ _ E) as (f & st & ts & s0 & D).
  assert (Hs0 : nondecreasing s0).
  { destruct (fd_pre _ _ _ _ _ _ _ _ D) as [A B]. unfold prebinned in A. destruct (sb_user (q_par o)); [rewrite B by discriminate; constructor|]. exact (lk_prebin _ K _ _ _ A). }
  pose proof (solutions_ok e K s0 Hs0) as KE. pose proof (fd_fit _ _ _ _ _ _ _ _ D) as Df.
  destruct (totals_pos _ _ _ _ _ _ KE HV Df) as [T1 T2]. destruct (C65_tables_exact _ _ _ _ _ _ KE HV Df) as (Hn & _ & _ & L1 & L2 & _). cbv zeta in L1, L2.
  pose proof (sp_disjoint_env _ KE) as Hd. pose proof (nsp _ KE) as N1. cbn [scen_env se_sp] in Hd, N1.
  eexists. unfold ask. cbn [sb_step snd]. unfold sb_guard, sb_transform. rewrite (fd_fitted _ _ _ _ _ _ _ _ D), (fd_table _ _ _ _ _ _ _ _ D), (fd_splits _ _ _ _ _ _ _ _ D), (fd_counts _ _ _ _ _ _ _ _ D).
  cbn [negb]. split; [reflexivity|]. cbn [main_table t_splits t_nev t_ev fst snd]. split; [exact Hn|]. split.
  - intros xs ks Hx. erewrite all_res_ok; [reflexivity|]. induction Hx as [|x k xs ks Hx _ IH]; [constructor|]. cbn [map]. constructor; [|exact IH].
    apply C25_empirical; auto. exact (lk_nan _ K).
  - intros b ms mm xs ks Hx.
    assert (V : exists vs, Forall2 (fun k v => nth_error (match b with BWoe => woe (sf_nev f) (sf_ev f) | BEventRate => event_rate (sf_nev f) (sf_ev f) end) k = Some v) ks vs /\
               Forall2 (fun x v => transform_binary_num (sf_splits f) (l_sp e) b ms mm UNone (sf_nev f) (sf_ev f) x = Ok v) xs vs).
    { induction Hx as [|x k xs ks [Hr Hk] _ (vs & A & B)]; [exists []; split; constructor|].
      destruct (transform_displayed (sf_splits f) (l_sp e) b ms mm UNone (sf_nev f) (sf_ev f) x k Hn Hd) as (v & V1 & V2); [congruence|rewrite N1; lia|apply (IZR_lt 0), T1|apply (IZR_lt 0), T2|intros z; discriminate|exact Hr|exact Hk|].
      exists (v :: vs). split; constructor; auto. }
    destruct V as (vs & A & B). exists vs. split; [exact A|]. now rewrite (all_res_ok _ _ _ B).
Qed.
Print Assumptions C88_transform_rows.

(** A fit that raises leaves the binning shown so far, or, when the refinement removes every split point, an empty one: status 0 (optimal),
    no splits, indices all 0, WoE and event rate unavailable, the previous table, no scenario tables. *)
Theorem C88_failed_fit : forall e user fixed fs h w l d k, lenv_ok e -> sb_exec e (sbo_new user fixed, fs) h = (w, l) ->
  (forall s, In s (sd_X d) -> scen_valid s) -> ask e w (SFit d) = Err k ->
  let w' := fst (sb_step e w (SFit d)) in
  looks_the_same e w w' shows_binning \/
  (ask e w' SStatus = Ok (SVStatus (Some 0)) /\ ask e w' SSplits = Ok (SVSplits (Some [])) /\ ask e w' STable = ask e w STable /\
   (forall xs, (forall x, In x xs -> exists z, x = XNum z /\ ~ In x (flat_codes (l_sp e))) ->
      forall ms mm, ask e w' (STransform xs (SIndices ms mm)) = Ok (SVAnswer (SAInd (map (fun _ => 0) xs)))) /\
   (forall xs b ms mm, ask e w' (STransform xs (SValue b ms mm)) = Err OtherError) /\
   (forall id v, ask e w' (SScenTable id) <> Ok v)).
Proof.
  intros e user fixed fs h [o fl] l d k K H HV F w'. unfold w' in *. clear w'. unfold ask in F. cbn [sb_step] in *.
  destruct (sb_fit_obj e o d) as [o' r] eqn:E. cbn [snd fst] in *. destruct r as [u|k']; [discriminate|]. injection F as ->.
  assert (Same : same_binning o o' -> looks_the_same e (o, fl) (o', fl) shows_binning).
  { intros (A & B & C & D & G & I) c Hc. unfold ask. destruct c; cbn [shows_binning] in Hc; try contradiction; cbn [sb_step snd]; unfold sb_guard, sb_transform, sb_to_json; rewrite ?A, ?B, ?C, ?G, ?I; try reflexivity. destruct p as [p|]; [|reflexivity]. destruct (negb (q_fitted o)); [reflexivity|]. destruct (q_table o) as [t|]; [|reflexivity]. destruct (json_ok t); reflexivity. }
  destruct (fit_failed _ _ _ _ _ K HV E) as [S|S]; [left; apply Same, S|]. destruct (q_fitted o) eqn:Q.
  - right. apply emptied_shows; assumption.
  - left. intros c Hc. pose proof (proj2 (proj2 (proj2 (proj2 (proj2 S))))) as F'. rewrite Q in F'.
    assert (N : needs_fit c \/ c = SToJson None).
    { destruct c; cbn in *; auto. destruct p; auto. }
    destruct N as [N| ->]; [|reflexivity]. rewrite (proj2 (needs_fit_nf e (o, fl) c N) Q), (proj2 (needs_fit_nf e (o', fl) c N) F'). reflexivity.
Qed.
Print Assumptions C88_failed_fit.

(** In particular: one scenario without a clean record of some class, and the fit raises and empties a fitted object. *)
Theorem C88_class_missing_refuted : forall e user fs h w l d s b, lenv_ok e -> sb_exec e (sbo_new user None, fs) h = (w, l) ->
  (forall s, In s (sd_X d) -> scen_valid s) -> l_valid e = true -> sd_lists d = None -> sd_split d = None -> (forall v, sd_w d = Some v -> length v = length (sd_X d)) ->
  match user with Some u => u <> [] /\ distinct u = true | None => exists s0, prebinned e None d s0 end ->
  In s (sd_X d) -> (forall c, In c (clean_records (l_sp e) s) -> c0 c <> b) ->
  (exists k, ask e w (SFit d) = Err k) /\
  (ask e w SSplits <> Err NotFitted ->
   let w' := fst (sb_step e w (SFit d)) in
   ask e w' SStatus = Ok (SVStatus (Some 0)) /\ ask e w' SSplits = Ok (SVSplits (Some [])) /\ ask e w' STable = ask e w STable /\
   (forall xs b ms mm, ask e w' (STransform xs (SValue b ms mm)) = Err OtherError)).
Proof.
  intros e user fs h [o fl] l d s b K H HV V L1 L2 LW U Hs Hb.
  pose proof (C88_fit_forgets_history e user None fs h (o, fl) l H) as (_ & _).
  assert (P : par_ok user None (q_par o)).
  { pose proof (exec_par_ok user None e h (sbo_new user None, fs) (or_introl eq_refl)) as P. rewrite H in P. exact P. }
  assert (Ne : sd_X d <> []) by (intros E; rewrite E in Hs; exact Hs).
  assert (Hdata : forall c, In c (scen_data (l_sp e) s) -> c0 c <> b) by (rewrite (scen_data_records (l_sp e) s (HV s Hs)); exact Hb).
  destruct (sb_fit_obj e o d) as [o' r] eqn:E.
  assert (R : exists k, r = Err k /\ (q_fitted o = true -> emptied o o')).
  { destruct P as [P|P].
    - pose proof (fit_run_of _ _ _ _ _ E) as R. destruct R as [k N|k C Q|s0 fx k C S Ep Ec|s0 fx pb o' r C S Ep Ec Eo].
      + exfalso. apply N. unfold checked. rewrite P. split; [exact V|]. split; [reflexivity|]. split; [exact L1|]. destruct (sd_w d); [now apply LW|exact I].
      + exfalso. destruct Q as [Q|[_ Q]]; [congruence|]. rewrite P in Q. unfold pre_splits in Q. cbn [sb_new sb_user sb_fixed option_map] in Q. destruct user as [u|].
        * destruct U as [U1 U2]. rewrite U2 in Q. destruct u; [congruence|]. discriminate.
        * destruct U as [s0 U]. unfold prebinned in U. destruct (sd_X d); [congruence|]. rewrite U in Q. discriminate.
      + exfalso. assert (fx = None).
        { rewrite P in Ep. unfold pre_splits in Ep. cbn [sb_new sb_user sb_fixed option_map] in Ep. destruct user; [destruct (_ || _)%bool; [discriminate|]; now injection Ep|]. destruct (sd_X d); [discriminate|].
          destruct (l_prebin e _ _); [now injection Ep|discriminate]. }
        subst fx. unfold refinement, fixed_p_used in Ec. apply refinement_none in Ec. destruct Ec as [pb Ec]. discriminate.
      + pose proof (class_missing e d _ pb s b (refinement_refined _ _ _ _ _ _ Ec) Hs Hdata) as Es.
        unfold sb_optimise in Eo. rewrite Es in Eo. unfold sb_post in Eo. destruct (sd_X d) as [|s1 X]; [congruence|]. cbn [post_loop] in Eo.
        destruct (map num _); injection Eo as <- <-; (eexists; split; [reflexivity|]; intros _; repeat split; reflexivity).
    - exfalso. assert (N : sb_fixed (q_par o) = None).
      { pose proof (C88_fit_forgets_history e user None fs h (o, fl) l H) as _. clear -H.
        assert (G : forall h w0, sb_fixed (q_par (fst w0)) = None -> sb_fixed (q_par (fst (fst (sb_exec e w0 h)))) = None).
        { clear. induction h as [|c h0 IH]; intros w0 N; [exact N|]. rewrite exec_cons. cbn [fst]. apply IH. destruct w0 as [o0 f0]. cbn [fst] in N.
          destruct c; cbn [sb_step fst]; try exact N.
          - destruct (sb_fit_obj e o0 d) as [o' r] eqn:Ef. exact (proj1 (proj2 (fit_par _ _ _ _ _ Ef) N)).
          - destruct (sb_fit_obj e o0 d) as [o' r] eqn:Ef. exact (proj1 (proj2 (fit_par _ _ _ _ _ Ef) N)).
          - destruct (sb_to_json o0 f0 p). exact N.
          - unfold sb_read_json. destruct (f0 p) as [[j|]|]; exact N. }
        pose proof (G h (sbo_new user None, fs) eq_refl) as N. rewrite H in N. exact N. }
      unfold sb_params_ok in P. rewrite N in P. discriminate. }
  destruct R as (k & -> & R). split; [exists k; unfold ask; cbn [sb_step]; now rewrite E|].
  intros NF w'. assert (Q : q_fitted o = true).
  { destruct (q_fitted o) eqn:Q; [reflexivity|]. exfalso. apply NF. apply (needs_fit_nf e (o, fl) SSplits I). exact Q. }
  assert (Ew : w' = (o', fl)) by (unfold w'; cbn [sb_step]; now rewrite E). rewrite Ew.
  destruct (emptied_shows e o o' fl Q (R Q)) as (A & B & C & _ & D & _). auto.
Qed.
Print Assumptions C88_class_missing_refuted.

(** With user_splits_fixed, one fit is all: after a fit that returned normally every later one raises ValueError and changes nothing. *)
Theorem C88_fixed_splits_fit_once_refuted : forall e user f fs h w l d, sb_exec e (sbo_new user (Some f), fs) h = (w, l) -> fits_data e w d ->
  forall later d2, let w2 := fst (sb_exec e (fst (sb_step e w (SFit d))) later) in
  sb_step e w2 (SFit d2) = (w2, Err ValueError).
Proof.
  intros e user f fs h [o fl] l d H F later d2 w2.
  assert (P : par_ok user (Some f) (q_par o)).
  { pose proof (exec_par_ok user (Some f) e h (sbo_new user (Some f), fs) (or_introl eq_refl)) as P. rewrite H in P. exact P. }
  apply fits_iff in F. cbn [fst] in F. destruct (sb_fit_obj e o d) as [o' r] eqn:E. cbn [snd] in F. subst r.
  assert (B : sb_params_ok (q_par o') = false).
  { pose proof (fit_params _ _ _ _ E) as C. destruct P as [P|P]; [|congruence]. pose proof (fit_par _ _ _ _ _ E) as [U _]. pose proof (fit_run_of _ _ _ _ _ E) as R. remember (Ok tt) as r.
    destruct R as [k N|k C' Q|s0 fx k C' S Ep Ec|s0 fx pb o' r C' S Ep Ec Eo]; try discriminate.
    rewrite P in Ep, C, U. unfold sb_params_ok in C. cbn [sb_new sb_fixed sb_user option_map] in C. destruct user as [u|]; [|discriminate]. cbn [negb orb andb] in C. apply Nat.eqb_eq in C.
    unfold pre_splits in Ep. cbn [sb_new sb_user sb_fixed option_map snd] in Ep. destruct (length u =? 0)%nat eqn:E0; [discriminate|]. cbn [orb] in Ep. destruct (negb (distinct u)); [discriminate|].
    injection Ep as <- <-. destruct (optimise_fitted _ _ _ _ _ _ Eo) as [_ Eq]. unfold sb_params_ok. rewrite U, Eq. cbn [set_npre after_refinement set_par q_par sb_fixed]. rewrite permuted_len by exact C. rewrite <- C, E0. reflexivity. }
  assert (G : forall hh w0, sb_params_ok (q_par (fst w0)) = false -> sb_params_ok (q_par (fst (fst (sb_exec e w0 hh)))) = false).
  { clear. induction hh as [|c hh IH]; intros w0 N; [exact N|]. rewrite exec_cons. cbn [fst]. apply IH. destruct w0 as [o0 f0]. cbn [fst] in N.
    destruct c; cbn [sb_step fst]; try exact N.
    - unfold sb_fit_obj. rewrite N, orb_true_r. exact N.
    - unfold sb_fit_obj. rewrite N, orb_true_r. exact N.
    - destruct (sb_to_json o0 f0 p). exact N.
    - unfold sb_read_json. destruct (f0 p) as [[j|]|]; exact N. }
  pose proof (G later (fst (sb_step e (o, fl) (SFit d)))) as N. fold w2 in N. cbn [sb_step] in N. rewrite E in N. cbn [fst] in N. specialize (N B).
  destruct w2 as [o2 f2]. cbn [sb_step]. cbn [fst] in N. unfold sb_fit_obj. rewrite N, orb_true_r. reflexivity.
Qed.
Print Assumptions C88_fixed_splits_fit_once_refuted.

(** to_json after a fit writes the file when X is not of an integer dtype in any scenario and no parameter is an array; read_json then gives a
    table with the same splits, counts and range to any object ... *)
Theorem C88_json_round_trip : forall e user fixed fs h w l d p, sb_exec e (sbo_new user fixed, fs) h = (w, l) -> fits_data e w d ->
  (forall i, In i (sd_int d) -> i = false) -> (forall c, l_sp e = SpList c -> l_spc e = PyList) -> (user <> None -> l_ucont e = PyList) ->
  let w1 := fst (sb_step e w (SFit d)) in
  ask e w1 (SToJson (Some p)) = Ok SVNone /\
  exists t, ask e w1 STable = Ok (SVTable (Some t)) /\
    forall o, let w2 := (o, snd (fst (sb_step e w1 (SToJson (Some p))))) in
      ask e w2 (SReadJson p) = Ok SVNone /\
      exists t', ask e (fst (sb_step e w2 (SReadJson p))) STable = Ok (SVTable (Some t')) /\
        t_special t' = t_special t /\ t_splits t' = t_splits t /\ t_nev t' = t_nev t /\ t_ev t' = t_ev t /\ t_min t' = t_min t /\ t_max t' = t_max t.
Proof.
  intros e user fixed fs h [o fl] l d p H F Hi Hsp Hu w1.
  assert (P : par_ok user fixed (q_par o)).
  { pose proof (exec_par_ok user fixed e h (sbo_new user fixed, fs) (or_introl eq_refl)) as P. rewrite H in P. exact P. }
  apply fits_iff in F. cbn [fst] in F. destruct (sb_fit_obj e o d) as [o' r] eqn:E. cbn [snd] in F. subst r.
  assert (Ep : q_par o = sb_new user fixed) by (destruct P as [P|P]; [exact P|apply fit_params in E; congruence]).
  assert (Ew : w1 = (o', fl)) by (unfold w1; cbn [sb_step]; now rewrite E). clearbody w1. subst w1.
  destruct (fit_ok _ _ _ _ E) as (f & st & ts & s0 & D). pose proof (fd_table _ _ _ _ _ _ _ _ D) as Et. pose proof (fd_fitted _ _ _ _ _ _ _ _ D) as Ef. set (t := main_table _ _ _ _ _) in *.
  assert (Ji : forall t', In t' ts -> t_int t' = false).
  { intros t' Ht. apply In_nth_error in Ht. destruct Ht as [i Hn]. assert (exists s, nth_error (sd_X d) i = Some s) as [s Hs].
    { destruct (nth_error (sd_X d) i) eqn:N; [eauto|]. apply nth_error_None in N. assert (K : nth_error ts i <> None) by congruence. apply nth_error_Some in K.
      rewrite (fd_len _ _ _ _ _ _ _ _ D) in K. lia. }
    destruct (fd_each _ _ _ _ _ _ _ _ D i s t' Hs Hn) as [_ N2]. rewrite N2. cbn [the_scen_table t_int]. destruct (nth_in_or_default i (sd_int d) false) as [A|A]; [apply Hi, A|exact A]. }
  assert (Ex : forall better g, snd (extreme better (map (fun t' => (g t', t_int t')) ts)) = false).
  { intros better g. assert (Pk : forall l m, snd m = false -> (forall q, In q l -> snd q = false) -> snd (pick better m l) = false).
    { induction l0 as [|q l0 IH]; intros m A B; [exact A|]. cbn [pick]. apply IH; [destruct (better _ _); [apply B; now left|exact A]|intros; apply B; now right]. }
    destruct ts as [|t0 ts']; [reflexivity|]. cbn [map extreme]. apply Pk; [cbn; apply Ji; now left|]. intros q Hq. apply in_map_iff in Hq. destruct Hq as (t' & <- & Ht). cbn. apply Ji. now right. }
  assert (J : json_ok t = true).
  { unfold json_ok, t, main_table. cbn [t_special t_special_c t_int t_others_c t_user]. rewrite (Ex Z.ltb t_min), (Ex Z.gtb t_max). cbn [orb negb].
    rewrite Ep. cbn [sb_new sb_user]. apply andb_true_iff. split; [|destruct user; cbn [option_map]; [rewrite Hu by discriminate|]; reflexivity]. rewrite !andb_true_r.
    destruct (l_sp e) as [|c|dd] eqn:Es; try reflexivity. rewrite (Hsp c eq_refl). reflexivity. }
  unfold ask. cbn [sb_step]. unfold sb_to_json. rewrite Ef, Et, J. cbn [negb fst snd]. split; [reflexivity|]. exists t. unfold sb_guard. rewrite Ef. cbn [negb]. split; [reflexivity|].
  intros o2. unfold sb_read_json, fwrite. rewrite Z.eqb_refl. cbn [fst snd set_tab q_fitted q_table negb]. split; [reflexivity|].
  eexists. split; [reflexivity|]. cbn. repeat split; reflexivity.
Qed.
Print Assumptions C88_json_round_trip.
(** ... but when the smallest or the largest clean value comes from integer arrays only (all scenarios integer, say), it raises TypeError
    and leaves a truncated file, which read_json refuses. *)
Theorem C88_json_integers_refuted : forall e user fixed fs h w l d p, sb_exec e (sbo_new user fixed, fs) h = (w, l) -> fits_data e w d ->
  (forall s, In s (sd_X d) -> scen_valid s) ->
  (exists edge, (edge = least \/ edge = greatest) /\
     forall i s v, nth_error (sd_X d) i = Some s -> clean_value (l_sp e) s v ->
       edge (fun v => exists s, In s (sd_X d) /\ clean_value (l_sp e) s v) v -> nth i (sd_int d) false = true) ->
  let w1 := fst (sb_step e w (SFit d)) in
  ask e w1 (SToJson (Some p)) = Err TypeError /\ ask e (fst (sb_step e w1 (SToJson (Some p)))) (SReadJson p) = Err ValueError.
Proof.
  intros e user fixed fs h w l d p H F HV (edge & Hedge & Hi) w1.
  destruct (C88_results e user fixed fs h w l d H HV F) as (_ & _ & _ & _ & _ & _ & _ & _ & (t & Ht & _ & _ & _ & _ & Lo & Hi') & _). cbv zeta in Ht. fold w1 in Ht.
  destruct w as [o fl]. apply fits_iff in F. cbn [fst] in F. destruct (sb_fit_obj e o d) as [o' r] eqn:E. cbn [snd] in F. subst r.
  assert (Ew : w1 = (o', fl)) by (unfold w1; cbn [sb_step]; now rewrite E). clearbody w1. subst w1.
  destruct (fit_ok _ _ _ _ E) as (f & st & ts & s0 & D). pose proof (fd_table _ _ _ _ _ _ _ _ D) as Et. pose proof (fd_fitted _ _ _ _ _ _ _ _ D) as Ef.
  unfold ask in Ht. cbn [sb_step snd] in Ht. unfold sb_guard in Ht. rewrite Ef, Et in Ht. cbn [negb] in Ht. injection Ht as Ht.
  assert (Ne : ts <> []).
  { intros ->. pose proof (fd_len _ _ _ _ _ _ _ _ D) as L. pose proof (fd_fit _ _ _ _ _ _ _ _ D) as Df. apply sb_fit_inv in Df. pose proof (ss_X _ _ _ _ _ Df). destruct (sd_X d); [congruence|discriminate]. }
  assert (Each : forall t', In t' ts -> exists i s, nth_error (sd_X d) i = Some s /\ t_int t' = nth i (sd_int d) false /\ clean_value (l_sp e) s (t_min t') /\ clean_value (l_sp e) s (t_max t')).
  { intros t' Hin. apply In_nth_error in Hin. destruct Hin as [i Hn]. assert (K : nth_error ts i <> None) by congruence. apply nth_error_Some in K. rewrite (fd_len _ _ _ _ _ _ _ _ D) in K.
    assert (exists s, nth_error (sd_X d) i = Some s) as [s Hs] by (destruct (nth_error (sd_X d) i) eqn:N; [eauto|apply nth_error_None in N; lia]).
    destruct (fd_each _ _ _ _ _ _ _ _ D i s t' Hs Hn) as [N1 N2]. exists i, s. split; [exact Hs|]. rewrite N2. cbn [the_scen_table t_int t_min t_max].
    destruct (HV s (nth_error_In _ _ Hs)) as [L _]. destruct (clean_records_spec (l_sp e) s L) as [C _]. split; [reflexivity|]. split; apply C; [apply zmin_least, N1|apply zmax_greatest, N1]. }
  assert (Pk : forall better l0 (m : Z * bool), In (pick better m l0) (m :: l0)).
  { intros better. induction l0 as [|q l0 IH]; intros m; [now left|]. cbn [pick]. destruct (IH (if better (fst q) (fst m) then q else m)) as [A|A]; [|right; now right].
    rewrite <- A. destruct (better _ _); [right; now left|now left]. }
  assert (Pick : forall better g, exists t', In t' ts /\ (g t', t_int t') = extreme better (map (fun t' => (g t', t_int t')) ts)).
  { intros better g. destruct ts as [|t0 ts']; [congruence|]. cbn [map extreme]. pose proof (Pk better (map (fun t' => (g t', t_int t')) ts') (g t0, t_int t0)) as A. destruct A as [A|A].
    - exists t0. split; [now left|exact A].
    - apply in_map_iff in A. destruct A as (t' & A & B). exists t'. split; [now right|exact A]. }
  assert (Ti : t_int t = true).
  { rewrite <- Ht. unfold main_table. cbn [t_int]. apply orb_true_iff. destruct Hedge as [-> | ->]; [left|right].
    - destruct (Pick Z.ltb t_min) as (t' & Hin & Eq). rewrite <- Eq. cbn [snd]. destruct (Each t' Hin) as (i & s & Hs & -> & C & _). apply (Hi i s (t_min t') Hs C).
      assert (Em : t_min t = t_min t') by (rewrite <- Ht; unfold main_table; cbn [t_min]; rewrite <- Eq; reflexivity). rewrite <- Em. exact Lo.
    - destruct (Pick Z.gtb t_max) as (t' & Hin & Eq). rewrite <- Eq. cbn [snd]. destruct (Each t' Hin) as (i & s & Hs & -> & _ & C). apply (Hi i s (t_max t') Hs C).
      assert (Em : t_max t = t_max t') by (rewrite <- Ht; unfold main_table; cbn [t_max]; rewrite <- Eq; reflexivity). rewrite <- Em. exact Hi'. }
  assert (J : json_ok t = false) by (unfold json_ok; rewrite Ti; cbn [negb]; rewrite andb_false_r; reflexivity).
  unfold ask. cbn [sb_step]. unfold sb_to_json. rewrite Ef, Et, Ht, J. cbn [negb fst snd]. split; [reflexivity|].
  cbn [sb_step]. unfold sb_read_json, fwrite. rewrite Z.eqb_refl. reflexivity.
Qed.
Print Assumptions C88_json_integers_refuted.

(** read_json restores the table only: on a new object splits and status are None, transform and the scenario tables raise TypeError. *)
Theorem C88_json_transform_refuted : forall e user fixed fs p, 
  let w := fst (sb_step e (sbo_new user fixed, fs) (SReadJson p)) in
  ask e w SSplits = Ok (SVSplits None) /\ ask e w SStatus = Ok (SVStatus None) /\
  (forall xs ms mm, ask e w (STransform xs (SIndices ms mm)) = Err TypeError) /\
  (forall xs b ms mm, ask e w (STransform xs (SValue b ms mm)) = Err TypeError) /\
  (forall i, 0 <= i -> ask e w (SScenTable (Some i)) = Err TypeError).
Proof.
  intros e user fixed fs p w.
  assert (E : exists t, w = (set_tab (sbo_new user fixed) t, fs)).
  { unfold w. cbn [sb_step]. unfold sb_read_json. destruct (fs p) as [[j|]|]; cbn [fst]; eauto. }
  destruct E as [t E]. clearbody w. subst w. unfold ask. cbn [sb_step snd]. do 2 (split; [reflexivity|]). split; [intros; reflexivity|]. split; [intros; reflexivity|].
  intros i Hi. unfold scen_tab. cbn [set_tab q_fitted negb sbo_new q_nscen]. assert (Z1 : (i <? 0) = false) by (apply Z.ltb_ge; lia). now rewrite Z1.
Qed.
Print Assumptions C88_json_transform_refuted.

(** * Concrete objects *)
Definition ex_env (splits : list Z) (int : bool) : lenv :=
  mkLE SpNone PyList (fun z => z) PyList true (fun _ _ => Ok splits) (fun pr => Ok (7, match pr_cols pr with c :: _ => repeat true (length (fst c)) | [] => [] end)).
Definition ex_scen : scen := ([XNum 1; XNum 1; XNum 9; XNum 9], [Y0; Y1; Y0; Y1]).
Definition ex_data (n : nat) : sdata := mkSD (repeat ex_scen n) [] None None None.
Definition ex_world : sworld := (sbo_new None None, fun _ => None).

(** The number of refinements is never reset: two identical fits, and information prints 1, then 2. *)
Theorem C88_refinements_accumulate_refuted : exists e d, snd (sb_exec e ex_world [SFit d; SInfo true; SFit d; SInfo true]) =
  [Ok SVNone; Ok (SVInfo (Some 7) (Some 2%nat) 1); Ok SVNone; Ok (SVInfo (Some 7) (Some 2%nat) 2)].
Proof. exists (ex_env [5; 20] false), (ex_data 2). vm_compute. reflexivity. Qed.
Print Assumptions C88_refinements_accumulate_refuted.

(** A call of fit with fewer scenarios that raises makes binning_table_scenario refuse scenarios whose tables are still there. *)
Theorem C88_scenario_ids_refuted : exists e w d k t, ask e w (SScenTable (Some 1)) = Ok (SVTable (Some t)) /\ ask e w (SFit d) = Err k /\
  let w' := fst (sb_step e w (SFit d)) in
  looks_the_same e w w' shows_binning /\ ask e w' (SScenTable (Some 0)) = ask e w (SScenTable (Some 0)) /\ ask e w' (SScenTable (Some 1)) = Err ValueError.
Proof.
  exists (ex_env [5] false), (fst (sb_step (ex_env [5] false) ex_world (SFit (ex_data 2)))), (mkSD [ex_scen] [] None None (Some ValueError)), ValueError.
  eexists. split; [vm_compute; reflexivity|]. split; [vm_compute; reflexivity|]. split; [|split; vm_compute; reflexivity].
  intros c Hc. destruct c; cbn [shows_binning] in Hc; try contradiction; try reflexivity. destruct p as [p|]; vm_compute; reflexivity.
Qed.
Print Assumptions C88_scenario_ids_refuted.

Example C88_hyps_met : forall n, (2 <= n <= 3)%nat -> fits_data (ex_env [5] false) ex_world (ex_data n) /\ lenv_ok (ex_env [5] false) /\ (forall s, In s (sd_X (ex_data n)) -> scen_valid s) /\
  needs_fit SStatus /\ established (ex_env [5] false) ex_world [SFit (ex_data n)] /\
  fits_data (ex_env [5] false) (sbo_new (Some [5]) (Some [true]), fun _ => None) (ex_data n) /\
  (exists k, ask (ex_env [20] false) (fst (sb_step (ex_env [5] false) ex_world (SFit (ex_data n)))) (SFit (ex_data n)) = Err k).
Proof.
  intros n Hn. assert (F : fits_data (ex_env [5] false) ex_world (ex_data n)) by (destruct n as [|[|[|[|n]]]]; try lia; vm_compute; reflexivity).
  split; [exact F|]. split; [|split; [|split; [exact I|split; [|split]]]].
  - constructor; cbn; try tauto.
    + intros X v s H. injection H as <-. repeat constructor.
    + intros pr m st sol H Hm Hc Hl. injection H as <- <-. destruct (pr_cols pr) as [|c r]; [congruence|]. destruct (Hl c (or_introl eq_refl)) as [L _]. rewrite L, repeat_length. split; [reflexivity|].
      clear -Hm. destruct m; [lia|]. clear Hm. induction m as [|m IH]; [reflexivity|]. cbn [repeat] in *. exact IH.
  - intros s Hs. apply repeat_spec in Hs. subst s. split; [reflexivity|]. cbn. intuition discriminate.
  - exists [], (SFit (ex_data n)), []. split; [reflexivity|]. left. exists (ex_data n). split; [now left|exact F].
  - destruct n as [|[|[|[|n]]]]; try lia; vm_compute; reflexivity.
  - destruct n as [|[|[|[|n]]]]; try lia; eexists; vm_compute; reflexivity.
Qed.
