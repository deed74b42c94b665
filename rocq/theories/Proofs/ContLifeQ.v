(** Histories of a ContinuousOptimalBinning object. *)
From Coq Require Import List ZArith QArith Bool Arith Lia.
From Verif Require Import Model.Arr Model.Core Model.CP Model.Cont Model.Lifecycle Model.ContLife
  Spec.CoreSpec Spec.CPSpec Spec.CPFitSpec Spec.ContSpec Spec.ContLifeSpec
  Proofs.ArrP Proofs.CoreP Proofs.FitP Proofs.CoreFinal Proofs.LifeP Proofs.LifeR Proofs.ContP Proofs.ContC Proofs.ContFinal
  Proofs.ContLifeP.
Import ListNotations.
Open Scope Z_scope.

(** ** is_fitted *)
Lemma cfit_fitted e d o o' r : cfit e d o = (o', r) ->
  r = Ok tt /\ co_fitted o' = true \/ r <> Ok tt /\ co_fitted o' = co_fitted o.
Proof.
  destruct (cfit_shape e d (co_user o) (co_fixed o)) as (x & _ & X & _). rewrite (X o eq_refl eq_refl).
  destruct x; cbn [apply]; intros H; injection H as <- <-; try (right; split; [discriminate|reflexivity]).
  left. split; reflexivity.
Qed.
Lemma cread_fitted o fs p o' r : cread_json o fs p = (o', r) -> co_fitted o' = true.
Proof. unfold cread_json. destruct (fs p) as [[]|]; intros H; injection H as <- <-; reflexivity. Qed.
Lemma c_on_table_fitted w f w' r : c_on_table w f = (w', r) -> co_fitted (fst w') = co_fitted (fst w).
Proof.
  unfold c_on_table. destruct (co_fitted (fst w)) eqn:E; cbn [negb]; [|intros H; injection H as <- <-; exact E].
  destruct (co_table (fst w)); [|intros H; injection H as <- <-; exact E].
  destruct (f c) as [t' v]. intros H. injection H as <- <-. reflexivity.
Qed.
Lemma cstep_fitted e w c w' r : cstep e w c = (w', r) ->
  (co_fitted (fst w') = true <-> co_fitted (fst w) = true \/ c_is_read c \/ (c_is_fit c /\ exists v, r = Ok v)).
Proof.
  destruct w as [o fs]. intros H.
  assert (Same : forall c, ~ c_is_read c -> ~ c_is_fit c -> co_fitted (fst w') = co_fitted o ->
            (co_fitted (fst w') = true <-> co_fitted o = true \/ c_is_read c \/ (c_is_fit c /\ exists v, r = Ok v))).
  { intros c' A B E. rewrite E. tauto. }
  destruct c; cbn [cstep] in H; cbn [fst];
    try (apply Same; [intros [? K]; discriminate K|intros [? K]; discriminate K|]).
  all: try (injection H as <- <-; reflexivity).
  all: try (apply c_on_table_fitted in H; exact H).
  - destruct (cfit e d o) as [o' q] eqn:F. apply cfit_fitted in F. injection H as <- <-. cbn [fst].
    destruct F as [[-> E]|[N E]]; rewrite E.
    + split; [|reflexivity]. intros _. right. right. split; [exists d; reflexivity|exists CVNone; reflexivity].
    + split; [intros K; left; exact K|]. intros [K|[[? K]|[_ [v K]]]]; [exact K|discriminate K|].
      destruct q as [[]|k]; [contradiction N; reflexivity|discriminate K].
  - destruct (cto_json o fs p) as [fs' q]. injection H as <- <-. reflexivity.
  - destruct (cread_json o fs p) as [o' q] eqn:F. apply cread_fitted in F. injection H as <- <-. cbn [fst].
    split; [|intros _; exact F]. intros _. right. left. exists p. reflexivity.
Qed.
Lemma cexec_cons e w c h w' outs : cexec e w (c :: h) = (w', outs) ->
  exists w1 v l, cstep e w c = (w1, v) /\ cexec e w1 h = (w', l) /\ outs = v :: l.
Proof.
  cbn [cexec]. destruct (cstep e w c) as [w1 v]. destruct (cexec e w1 h) as [w2 l] eqn:E. intros H.
  injection H as <- <-. exists w1, v, l. repeat split; assumption || reflexivity.
Qed.
Lemma c_succeeded_cons P c h v l : c_succeeded P (c :: h) (v :: l) <-> (P c /\ exists a, v = Ok a) \/ c_succeeded P h l.
Proof.
  split.
  - intros (i & c' & a & H & Pc & O). destruct i as [|i]; cbn in H, O.
    + injection H as ->. injection O as ->. left. split; [exact Pc|exists a; reflexivity].
    + right. exists i, c', a. repeat split; assumption.
  - intros [[Pc [a ->]]|(i & c' & a & H & Pc & O)].
    + exists 0%nat, c, a. repeat split; assumption || reflexivity.
    + exists (S i), c', a. repeat split; assumption.
Qed.
Lemma c_called_cons (P : cop -> Prop) c h : c_called P (c :: h) <-> P c \/ c_called P h.
Proof.
  split.
  - intros (x & [->|I] & Px); [left; exact Px|right; exists x; split; assumption].
  - intros [Pc|(x & I & Px)]; [exists c; split; [left; reflexivity|exact Pc]|exists x; split; [right; exact I|exact Px]].
Qed.
Lemma cexec_fitted e h : forall w w' outs, cexec e w h = (w', outs) ->
  (co_fitted (fst w') = true <-> co_fitted (fst w) = true \/ c_succeeded c_is_fit h outs \/ c_called c_is_read h).
Proof.
  induction h as [|c h IH]; intros w w' outs H.
  - injection H as <- <-. split; [tauto|]. intros [K|[(i & c & a & K & _)|(c & [] & _)]]; [exact K|destruct i; discriminate].
  - apply cexec_cons in H. destruct H as (w1 & v & l & S & E & ->).
    rewrite (IH _ _ _ E), (cstep_fitted _ _ _ _ _ S), c_succeeded_cons, c_called_cons. tauto.
Qed.
Lemma ctransform_not_fitted e o m xs : ctransform e o m xs = Err NotFitted <-> co_fitted o = false.
Proof.
  unfold ctransform. destruct (co_fitted o); cbn [negb]; [|tauto].
  split; [|discriminate]. intros H. exfalso.
  destruct (co_splits o) as [[c s]|]; [|discriminate].
  assert (NF : forall V (f : xval -> res V) l, (forall x, idx_like (f x)) -> all_res (map f l) <> Err NotFitted).
  { intros V f l HF K. apply all_res_err in K. apply in_map_iff in K. destruct K as (x & K & _).
    pose proof (HF x) as Q. rewrite K in Q. discriminate Q. }
  destruct m as [ms mm|ms mm].
  - assert (Q := NF Z (transform_indices s (ce_special e) ms mm) xs (fun x => transform1_idx _ _ _ _ _ _ _ _)).
    destruct (co_rows o), (is_empirical ms || is_empirical mm); try discriminate H;
      destruct (all_res _); try discriminate H; injection H as ->; apply Q; reflexivity.
  - destruct (co_rows o) as [rows|]; [|discriminate H].
    match type of H with match all_res (map ?f xs) with _ => _ end = _ =>
      assert (Q := NF (option Q) f xs (fun x => transform1_idx _ _ _ _ _ _ _ _)) end.
    destruct (all_res _) as [l|k]; [discriminate H|]. injection H as ->. apply Q. reflexivity.
Qed.
Lemma c_needs_fit_not_fitted e w c : c_needs_fit c -> (snd (cstep e w c) = Err NotFitted <-> co_fitted (fst w) = false).
Proof.
  destruct w as [o fs]. cbn [fst]. destruct c; cbn [c_needs_fit]; intros N; try contradiction; cbn [cstep snd].
  - rewrite <- (ctransform_not_fitted e o m xs). destruct (ctransform e o m xs); split; congruence.
  - destruct (co_fitted o); cbn [negb]; split; congruence.
  - destruct (co_fitted o); cbn [negb]; split; congruence.
  - destruct (co_fitted o); cbn [negb]; split; congruence.
  - destruct (co_fitted o); cbn [negb]; split; congruence.
  - unfold cto_json. destruct (co_fitted o); cbn [negb]; [|split; reflexivity].
    split; [|discriminate]. destruct (co_table o) as [t|]; [|discriminate].
    destruct (ct_splits_c t); [discriminate|]. destruct (cjson_ok t); discriminate.
  - unfold c_on_table. cbn [fst]. destruct (co_fitted o); cbn [negb]; [|split; reflexivity].
    split; [|discriminate]. destruct (co_table o) as [t|]; [|discriminate]. destruct valid; discriminate.
Qed.
Lemma c_not_fitted_iff e user fixed fs h w outs c :
  cexec e (cnew user fixed, fs) h = (w, outs) -> c_needs_fit c ->
  (snd (cstep e w c) = Err NotFitted <-> ~ c_succeeded c_is_fit h outs /\ ~ c_called c_is_read h).
Proof.
  intros H N. rewrite (c_needs_fit_not_fitted e w c N). pose proof (cexec_fitted _ _ _ _ _ H) as F. cbn [fst cnew co_fitted] in F.
  destruct (co_fitted (fst w)).
  - split; [discriminate|]. intros [A B]. destruct F as [F _]. destruct (F eq_refl) as [K|[K|K]]; [discriminate|tauto|tauto].
  - split; [|reflexivity]. intros _. destruct F as [_ F]. split; intros K; discriminate F; tauto.
Qed.

(** ** refit *)
Definition csim (o1 o2 : cobj) : Prop :=
  co_user o1 = co_user o2 /\ co_fixed o1 = co_fixed o2 /\ co_old o1 = co_old o2 /\ co_status o1 = co_status o2 /\
  co_splits o1 = co_splits o2 /\ co_rows o1 = co_rows o2 /\ co_table o1 = co_table o2 /\ co_fitted o1 = co_fitted o2.
Lemma c_on_table_sim o1 o2 fs f : csim o1 o2 ->
  snd (c_on_table (o1, fs) f) = snd (c_on_table (o2, fs) f) /\
  csim (fst (fst (c_on_table (o1, fs) f))) (fst (fst (c_on_table (o2, fs) f))) /\
  snd (fst (c_on_table (o1, fs) f)) = fs /\ snd (fst (c_on_table (o2, fs) f)) = fs.
Proof.
  intros H. pose proof H as (U & Fx & Od & St & S & R & T & F). unfold c_on_table. cbn [fst snd]. rewrite <- F, <- T.
  destruct (co_fitted o1) eqn:E; cbn [negb fst snd]; [|split; [reflexivity|split; [exact H|split; reflexivity]]].
  destruct (co_table o1) as [t|] eqn:ET; [|cbn [fst snd]; split; [reflexivity|split; [exact H|split; reflexivity]]].
  destruct (f t) as [t' v]. cbn [fst snd]. split; [reflexivity|]. split; [|split; reflexivity].
  unfold csim, c_set_table. cbn. repeat split; assumption.
Qed.
Lemma cstep_sim e o1 o2 fs c : csim o1 o2 ->
  (c <> CInformation -> snd (cstep e (o1, fs) c) = snd (cstep e (o2, fs) c)) /\
  csim (fst (fst (cstep e (o1, fs) c))) (fst (fst (cstep e (o2, fs) c))) /\
  snd (fst (cstep e (o1, fs) c)) = snd (fst (cstep e (o2, fs) c)).
Proof.
  intros H. pose proof H as (U & Fx & Od & St & S & R & T & F).
  destruct c; cbn [cstep fst snd].
  1:{ destruct (cfit_shape e d (co_user o1) (co_fixed o1)) as (x & _ & X & _).
      rewrite (X o1 eq_refl eq_refl), (X o2 (eq_sym U) (eq_sym Fx)).
      destruct x; cbn [apply fst snd]; (split; [reflexivity|]); (split; [|reflexivity]);
        unfold csim; cbn; rewrite ?Od, ?R; repeat split; assumption || reflexivity. }
  all: try (match goal with |- (_ -> snd (c_on_table _ ?f) = _) /\ _ => destruct (c_on_table_sim o1 o2 fs f H) as (A & B & E1 & E2) end;
    split; [intros _; exact A|]; split; [exact B|congruence]).
  - unfold ctransform. rewrite F, S, R. split; [reflexivity|]. split; [exact H|reflexivity].
  - rewrite F, S. split; [reflexivity|]. split; [exact H|reflexivity].
  - rewrite F, St. split; [reflexivity|]. split; [exact H|reflexivity].
  - rewrite F, T. split; [reflexivity|]. split; [exact H|reflexivity].
  - split; [intros K; contradiction K; reflexivity|]. split; [exact H|reflexivity].
  - unfold cto_json. rewrite F, T.
    destruct (co_fitted o2); cbn [negb fst snd]; [|split; [reflexivity|split; [exact H|reflexivity]]].
    destruct (co_table o2) as [t|]; [|cbn; split; [reflexivity|split; [exact H|reflexivity]]].
    destruct (ct_splits_c t); [cbn; split; [reflexivity|split; [exact H|reflexivity]]|].
    destruct (cjson_ok t); cbn [fst snd]; (split; [reflexivity|split; [exact H|reflexivity]]).
  - unfold cread_json. rewrite T. destruct (fs p) as [[j|]|]; cbn [fst snd];
      (split; [reflexivity|]); (split; [|reflexivity]); unfold csim; cbn; repeat split; assumption.
  - split; [reflexivity|]. split; [|reflexivity]. unfold csim. cbn. repeat split; assumption.
Qed.
Lemma cexec_sim e h : forall o1 o2 fs, csim o1 o2 -> ~ In CInformation h ->
  snd (cexec e (o1, fs) h) = snd (cexec e (o2, fs) h).
Proof.
  induction h as [|c h IH]; intros o1 o2 fs H NI; [reflexivity|].
  destruct (cstep_sim e o1 o2 fs c H) as (A & B & C). cbn [cexec].
  destruct (cstep e (o1, fs) c) as [[o1' fs1] v1], (cstep e (o2, fs) c) as [[o2' fs2] v2]. cbn [fst snd] in *. subst fs2.
  assert (IH' := IH o1' o2' fs1 B (fun K => NI (or_intror K))).
  destruct (cexec e (o1', fs1) h), (cexec e (o2', fs1) h). cbn [snd] in *. subst.
  rewrite A; [reflexivity|]. intros ->. apply NI. left. reflexivity.
Qed.

Lemma mrow_counts old1 old2 d : same_counts (mrow old1 d) (mrow old2 d).
Proof. unfold mrow, same_counts, missing_row. repeat split. Qed.
Lemma row_mean_counts a b : same_counts a b -> row_mean a = row_mean b.
Proof. intros (A & B & _). unfold row_mean. rewrite A, B. reflexivity. Qed.
Lemma mean_col_counts full n rows a b : same_counts a b -> mean_col full n (rows ++ [a]) = mean_col full n (rows ++ [b]).
Proof.
  intros H. unfold mean_col.
  assert (E : map row_mean (rows ++ [a]) = map row_mean (rows ++ [b])).
  { rewrite !map_app. cbn [map]. rewrite (row_mean_counts a b H). reflexivity. }
  destruct full; [exact E|]. rewrite <- !firstn_map, E. reflexivity.
Qed.

Lemma c_refit e o d o1 r1 o2 r2 : co_fixed o = None ->
  cfit e d o = (o1, r1) -> cfit e d (cnew (co_user o) None) = (o2, r2) ->
  r1 = r2 /\ co_user o1 = co_user o /\ co_fixed o1 = None /\ co_nref o1 = (co_nref o + co_nref o2)%nat /\
  (r1 = Ok tt ->
    (forall fs c, c_basic c -> snd (cstep e (o1, fs) c) = snd (cstep e (o2, fs) c)) /\
    (exists t1 t2, co_table o1 = Some t1 /\ co_table o2 = Some t2 /\ same_but_missing (ct_rows t1) (ct_rows t2) /\
       t1 = mkCT (ct_special t2) (ct_special_c t2) (ct_splits t2) (ct_splits_c t2) (ct_rows t1) (ct_min t2) (ct_max t2)
                 (ct_int t2) (ct_others_c t2) (ct_user t2) (ct_built t2) (ct_analyzed t2)) /\
    (missing_records d <> [] \/ co_old o = fresh ->
       forall fs h, ~ In CInformation h -> snd (cexec e (o1, fs) h) = snd (cexec e (o2, fs) h))).
Proof.
  intros FX F1 F2. destruct (cfit_shape e d (co_user o) None) as (x & _ & X & P). specialize (P eq_refl).
  rewrite (X o eq_refl FX) in F1. rewrite (X (cnew (co_user o) None) eq_refl eq_refl) in F2.
  destruct x; cbn [apply cnew co_nref co_old co_status co_splits co_rows co_table co_fitted] in F1, F2; destruct P as [-> ->];
    injection F1 as <- <-; injection F2 as <- <-; (split; [reflexivity|]); cbn [co_user co_fixed co_nref];
    (split; [reflexivity|]); (split; [reflexivity|]); (split; [lia|]); try discriminate.
  intros _. split; [|split].
  - intros fs c B. destruct c; try contradiction; cbn [cstep snd co_fitted co_splits co_status]; try reflexivity.
    assert (G : forall o o', co_fitted o = co_fitted o' -> co_splits o = co_splits o' ->
       match co_rows o, co_rows o' with Some a, Some b => exists r x y, a = r ++ [x] /\ b = r ++ [y] /\ same_counts x y | _, _ => False end ->
       ctransform e o m xs = ctransform e o' m xs).
    { clear. intros o o' A B C. unfold ctransform. rewrite A, B. destruct (co_rows o) as [a|], (co_rows o') as [b|]; try contradiction.
      destruct C as (r & x & y & -> & -> & SC). destruct (negb (co_fitted o')); [reflexivity|].
      destruct (co_splits o') as [[cc ss]|]; [|reflexivity]. destruct m as [ms mm|ms mm]; [reflexivity|].
      rewrite (mean_col_counts _ _ _ _ _ SC). reflexivity. }
    match goal with |- match ctransform e ?a m xs with _ => _ end = match ctransform e ?b m xs with _ => _ end =>
      rewrite (G a b); [reflexivity|reflexivity|reflexivity|] end.
    cbn [co_rows]. eexists _, _, _. split; [reflexivity|]. split; [reflexivity|]. apply mrow_counts.
  - eexists _, _. split; [reflexivity|]. split; [reflexivity|]. cbn. split; [|reflexivity].
    eexists _, _, _. split; [reflexivity|]. split; [reflexivity|]. apply mrow_counts.
  - intros M fs h NI. apply cexec_sim; [|exact NI].
    assert (EO : new_old (co_old o) (missing_records d) = new_old fresh (missing_records d)).
    { destruct M as [M|M]; [|rewrite M; reflexivity]. destruct (missing_records d); [contradiction M; reflexivity|reflexivity]. }
    assert (EM : mrow (co_old o) d = mrow fresh d). { unfold mrow. rewrite EO. reflexivity. }
    unfold csim. cbn. rewrite EO, EM. repeat split.
Qed.

(** ** the Std, Min and Max of the Missing row *)
Definition stale_of (l : list krec) : stale := new_old fresh l.
Lemma describes_stale l d : missing_records d = [] -> describes l (mrow (stale_of l) d).
Proof.
  intros E. unfold describes, mrow. rewrite E. cbn [missing_row new_old r_std r_min r_max]. destruct l; repeat split.
Qed.
Lemma describes_own old d : missing_records d <> [] -> describes (missing_records d) (mrow old d).
Proof. intros N. rewrite missing_row_new. unfold describes, missing_row. cbn [r_std r_min r_max].
  destruct (missing_records d); [contradiction N; reflexivity|]. repeat split. Qed.
Lemma new_old_stale l l' : new_old (stale_of l) l' = stale_of (match l' with [] => l | _ => l' end).
Proof. destruct l'; reflexivity. Qed.
Lemma last_missing_snoc ds d : last_missing (ds ++ [d]) = match missing_records d with [] => last_missing ds | l => l end.
Proof.
  induction ds as [|a ds IH]; [cbn; destruct (missing_records d); reflexivity|]. cbn [app last_missing]. rewrite IH.
  destruct (missing_records d); reflexivity.
Qed.
Lemma c_on_table_old w f w' r : c_on_table w f = (w', r) -> co_old (fst w') = co_old (fst w).
Proof.
  unfold c_on_table. destruct (negb (co_fitted (fst w))); [intros H; injection H as <- <-; reflexivity|].
  destruct (co_table (fst w)); [|intros H; injection H as <- <-; reflexivity].
  destruct (f c) as [t' v]. intros H. injection H as <- <-. reflexivity.
Qed.
Lemma cstep_old e w c w' r : cstep e w c = (w', r) ->
  match c with
  | CFit d => co_old (fst w') = new_old (co_old (fst w)) (missing_records d) \/
              co_old (fst w') = co_old (fst w) /\ exists k, r = Err k
  | _ => co_old (fst w') = co_old (fst w)
  end.
Proof.
  destruct w as [o fs]. destruct c; cbn [cstep]; intros H;
    try (injection H as <- <-; reflexivity); try (apply c_on_table_old in H; exact H).
  - destruct (cfit_shape e d (co_user o) (co_fixed o)) as (x & _ & X & _). rewrite (X o eq_refl eq_refl) in H.
    destruct x; cbn [apply] in H; injection H as <- <-; cbn [fst co_old]; try (left; reflexivity).
    right. split; [reflexivity|]. eexists. reflexivity.
  - destruct (cto_json o fs p). injection H as <- <-. reflexivity.
  - unfold cread_json in H. destruct (fs p) as [[]|]; injection H as <- <-; reflexivity.
Qed.
Lemma fit_data_cons c h : fit_data (c :: h) = match c with CFit d => d :: fit_data h | _ => fit_data h end.
Proof. destruct c; reflexivity. Qed.
Lemma cexec_old e h : forall w w' outs l, cexec e w h = (w', outs) -> all_fits_ok h outs ->
  co_old (fst w) = stale_of l -> co_old (fst w') = stale_of (match last_missing (fit_data h) with [] => l | m => m end).
Proof.
  induction h as [|c h IH]; intros w w' outs l H A O.
  - injection H as <- <-. exact O.
  - apply cexec_cons in H. destruct H as (w1 & v & ls & S & E & ->). apply cstep_old in S.
    assert (A' : all_fits_ok h ls). { intros i d K. exact (A (Datatypes.S i) d K). }
    rewrite fit_data_cons. destruct c; try (rewrite (IH _ _ _ l E A'); [reflexivity|congruence]).
    destruct S as [S|[_ [k ->]]]; [|destruct (A 0%nat d eq_refl) as [v' K]; discriminate K].
    rewrite O, new_old_stale in S. rewrite (IH _ _ _ _ E A' S). cbn [last_missing].
    destruct (last_missing (fit_data h)); [destruct (missing_records d)|]; reflexivity.
Qed.
Lemma cexec_old_any e h : forall w w' outs l, cexec e w h = (w', outs) ->
  co_old (fst w) = stale_of l -> exists l', co_old (fst w') = stale_of l' /\
    (l' = l \/ exists d, In (CFit d) h /\ l' = missing_records d).
Proof.
  induction h as [|c h IH]; intros w w' outs l H O.
  - injection H as <- <-. exists l. split; [exact O|left; reflexivity].
  - apply cexec_cons in H. destruct H as (w1 & v & ls & S & E & ->). apply cstep_old in S.
    assert (G : exists l1, co_old (fst w1) = stale_of l1 /\ (l1 = l \/ exists d, c = CFit d /\ l1 = missing_records d)).
    { destruct c; try (exists l; split; [congruence|left; reflexivity]).
      destruct S as [S|[S _]]; [|exists l; split; [congruence|left; reflexivity]].
      rewrite O, new_old_stale in S. destruct (missing_records d) eqn:EM.
      - exists l. split; [exact S|left; reflexivity].
      - eexists. split; [exact S|]. right. exists d. split; [reflexivity|congruence]. }
    destruct G as (l1 & G1 & G2). destruct (IH _ _ _ _ E G1) as (l2 & K1 & K2). exists l2. split; [exact K1|].
    destruct K2 as [->|(d & K & ->)]; [|right; exists d; split; [right; exact K|reflexivity]].
    destruct G2 as [->|(d & -> & ->)]; [left; reflexivity|]. right. exists d. split; [left; reflexivity|reflexivity].
Qed.
Lemma cfit_ok_table e d o o' : cfit e d o = (o', Ok tt) -> exists t rows, co_table o' = Some t /\
  ct_rows t = rows ++ [mrow (co_old o) d] /\ co_splits o' = Some (NdArray, ct_splits t) /\ co_rows o' = Some (ct_rows t) /\
  linked e d (ct_splits t) rows /\ ct_built t = false /\ ct_analyzed t = false /\ co_fitted o' = true /\
  ct_special t = ce_special e /\ clean_data e d <> [] /\ ct_min t = zmin (map s_x (clean_data e d)) /\ ct_max t = zmax (map s_x (clean_data e d)) /\
  ct_splits_c t = NdArray /\ ct_int t = cd_int d /\ ct_others_c t = PyList /\ ct_user t = co_user o' /\ ct_special_c t = ce_special_c e.
Proof.
  destruct (cfit_shape e d (co_user o) (co_fixed o)) as (x & FA & X & _). rewrite (X o eq_refl eq_refl).
  destruct x; cbn [apply]; intros H; try discriminate H. injection H as <-.
  cbn [facts] in FA. destruct FA as (A & B & C & D).
  eexists _, rows. cbn. split; [reflexivity|]. repeat (split; [first [reflexivity|assumption]|]). reflexivity.
Qed.

(** ** a failed fit *)
Definition c_same_results (o o' : cobj) : Prop :=
  co_status o' = co_status o /\ co_splits o' = co_splits o /\ co_rows o' = co_rows o /\ co_table o' = co_table o /\
  co_fitted o' = co_fitted o.
Lemma c_same_results_answers e o o' : c_same_results o o' -> c_same_answers e o o'.
Proof.
  intros (St & S & R & T & F) fs c Q.
  destruct c; try contradiction; cbn [cstep snd]; unfold ctransform, c_on_table; cbn [fst snd]; rewrite ?St, ?S, ?R, ?T, ?F; try reflexivity.
  all: destruct (negb (co_fitted o)); [reflexivity|]; destruct (co_table o) as [t|]; try reflexivity.
  - destruct valid; reflexivity.
  - destruct (negb (ct_built t)); [reflexivity|destruct valid; reflexivity].
  - destruct (negb (ct_built t)); [reflexivity|destruct valid; reflexivity].
Qed.
Lemma has_clean_data e d : c_has_clean e d -> clean_data e d <> [].
Proof.
  intros (r & I & z & y & X & Y & N) E. unfold clean_data in E.
  assert (K : In (to_ksample r) (map to_ksample (filter (k_clean (ce_special e)) (cd_recs d)))).
  { apply in_map, filter_In. split; [exact I|]. unfold k_clean, k_missing, k_special. rewrite X, Y. cbn [x_isnull orb negb andb].
    destruct (ce_special e) as [|l|l] eqn:ES; [reflexivity| |];
      apply negb_true_iff, not_true_is_false; rewrite isin_In; exact N. }
  rewrite E in K. exact K.
Qed.
Lemma c_failed e d o o' k : c_answers_fit e -> c_has_clean e d -> cfit e d o = (o', Err k) -> c_same_answers e o o'.
Proof.
  intros AF HC H. apply c_same_results_answers. apply has_clean_data in HC.
  destruct (cfit_shape e d (co_user o) (co_fixed o)) as (x & FA & X & _). rewrite (X o eq_refl eq_refl) in H.
  destruct x as [k0 u f|k0 n u f|k0 n u f status s rows|n u f status s rows mn mx]; [| |destruct (HC (FA AF))|discriminate H];
    cbn [apply] in H; injection H as <- _; repeat split.
Qed.

(** ** json *)
Lemma c_round_trip o fs p fs1 o2 : cto_json o fs p = (fs1, Ok tt) ->
  exists t o3 t', co_table o = Some t /\ cread_json o2 fs1 p = (o3, Ok tt) /\ co_table o3 = Some t' /\ c_same_contents t t'.
Proof.
  unfold cto_json. destruct (negb (co_fitted o)); [discriminate|]. destruct (co_table o) as [t|]; [|discriminate].
  destruct (ct_splits_c t); [discriminate|]. destruct (cjson_ok t); [|discriminate]. intros H. injection H as <-.
  eexists t, _, _. split; [reflexivity|]. unfold cread_json, cwrite. rewrite Z.eqb_refl. split; [reflexivity|]. split; [reflexivity|].
  unfold c_same_contents. cbn. repeat split. destruct (ct_user t) as [[]|]; reflexivity.
Qed.
