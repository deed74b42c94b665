(** C86: OptimalBinning2D and ContinuousOptimalBinning2D over any history of calls. *)
From Coq Require Import List ZArith QArith Bool Arith String Lia.
From Verif Require Import Model.Arr Model.Core Model.TwoD Model.TwoDCont Model.TwoDCart Model.TwoDLife Spec.CoreSpec Spec.TwoDSpec Spec.TwoDCartSpec
  Spec.TwoDLifeSpec Proofs.ArrP Proofs.CoreP Proofs.TwoDP Proofs.TwoDQ Proofs.TwoDR Proofs.TwoDV Proofs.TwoDCartQ Proofs.TwoDLifeP Props.TwoDProps Props.TwoDContProps.
Import ListNotations.
Open Scope string_scope.
Open Scope Z_scope.

(** Methods that need a fitted object raise NotFittedError until a fit succeeded or read_json was called ... *)
Theorem C86_not_fitted_iff : forall S (e : env2 S) h o outs, exec2 e new2 h = (o, outs) ->
  (forall c, needs_fit2 c -> (~ exists c', In c' h /\ (fits2 e c' \/ is_read c')) -> ask2 e o c = Err NotFitted) /\
  (forall c, needs_fit2 c -> c <> OToJson true -> c <> OAnalysis -> ask2 e o c = Err NotFitted ->
     ~ exists c', In c' h /\ (fits2 e c' \/ is_read c')).
Proof.
  intros S e h o outs H. pose proof (exec_fitted2 e h _ _ _ H) as F. cbn [new2 b_fitted] in F.
  assert (N : (~ exists c', In c' h /\ (fits2 e c' \/ is_read c')) <-> b_fitted o = false).
  { destruct (b_fitted o); split; try congruence.
    - intros K. exfalso. apply K. destruct (proj1 F eq_refl) as [A|A]; [discriminate A|exact A].
    - intros _ K. assert (false = true) by (apply F; now right). discriminate. }
  split.
  - intros c Hc Hn. apply N in Hn. unfold ask2. destruct c; try destruct path; try contradiction; cbn [step2 snd]; rewrite ?Hn; try reflexivity.
    rewrite rfmap_nf. apply transform_2d_nf. exact Hn.
  - intros c Hc N1 N2 Ha. apply N. unfold ask2 in Ha. destruct (b_fitted o) eqn:EF; [|reflexivity]. exfalso. destruct c; try destruct path; try contradiction; cbn [step2 snd] in Ha; rewrite ?EF in Ha; cbn [negb] in Ha.
    + rewrite rfmap_nf in Ha. apply transform_2d_nf in Ha. congruence.
    + revert Ha. unfold show_axis. destruct (e_cat_x e), (e_cat_y e), (b_splits o); cbn [option_map]; discriminate.
    + discriminate.
    + discriminate.
    + destruct level_ok, (b_name o); discriminate.
    + destruct (b_table o) as [[f std ax ay m n bt|z]|]; [destruct valid|idtac|idtac]; discriminate.
Qed.
Print Assumptions C86_not_fitted_iff.

(** A fit answers as on a new object, and when it succeeds everything afterwards is as on a new object: no trace of earlier calls. *)
Theorem C86_fit_forgets_history : forall S (e : env2 S) h o outs, exec2 e new2 h = (o, outs) ->
  (forall d check, ask2 e o (OFit d check) = ask2 e new2 (OFit d check)) /\
  (forall d check m, fits2 e (OFit d check) -> ask2 e o (OFitTransform d check m) = ask2 e new2 (OFitTransform d check m)) /\
  (forall c, fits2 e c -> forall h2, snd (exec2 e (fst (step2 e o c)) h2) = snd (exec2 e (fst (step2 e new2 c)) h2)).
Proof.
  intros S e h o outs H. split; [|split].
  - intros d check. unfold ask2. cbn [step2]. destruct (fit_2d e d check); reflexivity.
  - intros d check m F. apply fits_iff in F. destruct F as (d' & ck & [K|[m' K]] & D); [|discriminate K]. injection K as <- <-.
    unfold ask2. cbn [step2]. rewrite (after_done_same e o new2 _ D). reflexivity.
  - intros c F h2. apply fits_iff in F. destruct F as (d & ck & [-> |[m ->]] & D); cbn [step2]; rewrite (after_done_same e o new2 _ D); reflexivity.
Qed.
Print Assumptions C86_fit_forgets_history.

(** fit_transform is fit followed by transform of the same points. *)
Theorem C86_fit_transform : forall S (e : env2 S) o d check m,
  step2 e o (OFitTransform d check m) =
  (let fitted := step2 e o (OFit d check) in
   (fst fitted, match snd fitted with
                | Err k => Err k
                | Ok _ => ask2 e (fst fitted) (OTransform (map (kd_point (e_kind e)) (d_samples d)) (d_bad d) check m)
                end)).
Proof.
  intros S e o d check m. cbn [step2]. unfold ask2. cbn [step2 snd]. destruct (after2 e o (fit_2d e d check)) as [o' [[]|k]]; reflexivity.
Qed.
Print Assumptions C86_fit_transform.
(** ... the points of the samples: a sample is (x, y, target). *)
Theorem C86_fit_transform_points :
  (forall (e : env2 sample2) o d check m, e_kind e = binary_kind ->
     snd (step2 e o (OFitTransform d check m)) =
       match snd (step2 e o (OFit d check)) with
       | Err k => Err k
       | Ok _ => ask2 e (fst (step2 e o (OFit d check))) (OTransform (map (fun s : sample2 => match s with (x, y, _) => (x, y) end) (d_samples d)) (d_bad d) check m)
       end) /\
  (forall (e : env2 sample3) o d check m, e_kind e = continuous_kind ->
     snd (step2 e o (OFitTransform d check m)) =
       match snd (step2 e o (OFit d check)) with
       | Err k => Err k
       | Ok _ => ask2 e (fst (step2 e o (OFit d check))) (OTransform (map (fun s : sample3 => match s with (x, y, _) => (x, y) end) (d_samples d)) (d_bad d) check m)
       end).
Proof.
  split; intros e o d check m K; rewrite C86_fit_transform; cbv zeta; cbn [snd]; destruct (snd (step2 e o (OFit d check))); try reflexivity; rewrite K; cbn [binary_kind continuous_kind kd_point];
    (erewrite map_ext; [reflexivity|]); intros [[x y] z]; reflexivity.
Qed.
Print Assumptions C86_fit_transform_points.
(** An unknown metric, or malformed points with check_input, is a ValueError; NotFittedError comes first. *)
Theorem C86_transform_rejects : forall S (e : env2 S) o pts bad check m, m = MUnknown \/ (bad = true /\ check = true) ->
  ask2 e o (OTransform pts bad check m) = Err NotFitted \/ ask2 e o (OTransform pts bad check m) = Err ValueError.
Proof.
  intros S e o pts bad check m H. unfold ask2. cbn [step2 snd]. unfold transform_2d. destruct (b_fitted o); [|now left]. right. cbn [negb].
  destruct H as [-> |[-> ->]]; [reflexivity|]. destruct m; reflexivity.
Qed.
Print Assumptions C86_transform_rejects.

(** ** What the object answers after a successful fit *)
Lemma after_fit {S} (e : env2 S) o0 d check o : step2 e o0 (OFit d check) = (o, Ok V2None) ->
  exists sx sy t f m n, e_pre_x e (List.length (d_samples d)) (fit_axis_x e d) (clean_of e d) = Ok sx /\
    e_pre_y e (List.length (d_samples d)) (fit_axis_y e d) (clean_of e d) = Ok sy /\
    match e_grow e with None => t = None | Some g => exists t', g sx sy (fit_axis_x e d) (fit_axis_y e d) (clean_of e d) = Ok t' /\ t = Some t' end /\
    fit_kind e (fit_axis_x e d) (fit_axis_y e d) sx sy t (d_samples d) = Ok f /\
    let std := kd_var (e_kind e) (fit_axis_x e d) (fit_axis_y e d) sx sy (clean_of e d) (t_rows f)
          (filter (kd_special (e_kind e) (e_cx e) (e_cy e)) (d_samples d)) (filter (kd_missing (e_kind e)) (d_samples d)) in
    b_fitted o = true /\ b_name o = true /\ b_cats o = Some (the_cats e d) /\ b_counts o = Some (t_nev f, t_ev f) /\ b_splits o = Some (t_bx f, t_by f) /\
    b_table o = Some (Tab2D f std (fit_axis_x e d) (fit_axis_y e d) m n false) /\ m = Datatypes.S (List.length sy) /\ n = Datatypes.S (List.length sx).
Proof.
  intros H. destruct (fit_cases e d check) as [[k E]|(sx & sy & t & Px & Py & G & E)]; cbn [step2] in H; rewrite E in H; [discriminate H|].
  pose proof (optimise_early e (fit_axis_x e d) (fit_axis_y e d) sx sy t (d_samples d) (mkEa (the_cats e d) (Datatypes.S (List.length sx) * Datatypes.S (List.length sy)))) as OE.
  destruct (optimise2 _ _ _ _ _ _ _ _) as [k|a k|a|a c k|a f std m n] eqn:O; try discriminate H. apply optimise_done in O. destruct O as (FK & EA & Em & En & Es).
  cbn [after2] in H. injection H as <-. exists sx, sy, t, f, m, n. rewrite EA. cbn [ea_cats b_fitted b_name b_cats b_counts b_splits b_table].
  rewrite axis_x_eq, axis_y_eq. split; [exact Px|]. split; [exact Py|]. split; [exact G|]. split; [exact FK|]. cbv zeta. fold (clean_of e d) in Es. rewrite <- Es.
  repeat split; assumption.
Qed.
Lemma answers_after {S} (e : env2 S) o d f std m n : b_fitted o = true -> b_cats o = Some (the_cats e d) -> b_counts o = Some (t_nev f, t_ev f) ->
  b_splits o = Some (t_bx f, t_by f) -> b_table o = Some (Tab2D f std (fit_axis_x e d) (fit_axis_y e d) m n false) ->
  ask2 e o OTable = Ok (V2Table (Some (Tab2D f std (fit_axis_x e d) (fit_axis_y e d) m n false))) /\
  ask2 e o OSplits = Ok (V2Splits (splits_shown (fit_axis_x e d) (t_bx f)) (splits_shown (fit_axis_y e d) (t_by f))) /\
  ask2 e o (OBuild true) = Ok (V2Built f std (fit_axis_x e d) (fit_axis_y e d)) /\
  forall pts bad ck, (bad && ck)%bool = false ->
    (forall ms mm, ask2 e o (OTransform pts bad ck (MIndices2 ms mm)) =
       rfmap (fun l => V2Values (VInd l)) (rmap (fun p => transform2_indices (fit_axis_x e d) (fit_axis_y e d) (e_cx e) (e_cy e) f ms mm (fst p) (snd p)) pts)) /\
    (forall ms mm, ask2 e o (OTransform pts bad ck (MColumn ms mm)) =
       rfmap (fun l => V2Values (VCol l)) (rmap (fun p => transform2 (fit_axis_x e d) (fit_axis_y e d) (e_cx e) (e_cy e) f MValue ms mm
         (kd_column (e_kind e) (cut ms mm (List.length (t_bx f)) (t_nev f)) (cut ms mm (List.length (t_bx f)) (t_ev f))) 0%Q (fst p) (snd p)) pts)).
Proof.
  intros F C N Sp T. unfold ask2. cbn [step2 snd]. rewrite F, C, Sp, T. cbn [negb option_map fst snd].
  split; [reflexivity|]. split.
  { unfold show_axis, fit_axis_x, fit_axis_y, the_cats, splits_shown. cbn [fst snd]. destruct (e_cat_x e), (e_cat_y e); reflexivity. }
  split; [reflexivity|]. intros pts bad ck B. unfold transform_2d. rewrite F, B, C, Sp, N. cbn [negb]. rewrite axis_x_eq, axis_y_eq. cbn [fst snd].
  split; intros ms mm; match goal with |- rfmap _ (rfmap _ ?r) = rfmap _ ?r2 => change r2 with r; destruct r; reflexivity end.
Qed.

(** OptimalBinning2D, after any history: the answers of a fitted object are those of the fit just made (Model.TwoD.fit2, about
    which C46 is stated, or fit2_cart, about which C61 is) on the data just given. *)
Theorem C86_binary_results : forall (e : env2 sample2) h o0 outs d check o, e_kind e = binary_kind ->
  exec2 e new2 h = (o0, outs) -> step2 e o0 (OFit d check) = (o, Ok V2None) ->
  let ax := fit_axis_x e d in let ay := fit_axis_y e d in
  exists sx sy f m n, e_pre_x e (List.length (d_samples d)) ax (clean_of e d) = Ok sx /\ e_pre_y e (List.length (d_samples d)) ay (clean_of e d) = Ok sy /\
    match e_grow e with
    | None => fit2 ax ay (e_cx e) (e_cy e) (fun _ => sx) (fun _ => sy) (e_size e (List.length (d_samples d))) (solution_of e) (e_P0 e) (d_samples d) = Ok f
    | Some g => exists t, g sx sy ax ay (clean_of e d) = Ok t /\
        fit2_cart ax ay (e_cx e) (e_cy e) (fun _ => sx) (fun _ => sy) (fun _ => t) (e_size e (List.length (d_samples d))) (solution_of e) (e_P0 e) (d_samples d) = Ok f
    end /\
    ask2 e o OTable = Ok (V2Table (Some (Tab2D f [] ax ay m n false))) /\
    ask2 e o OSplits = Ok (V2Splits (splits_shown ax (t_bx f)) (splits_shown ay (t_by f))) /\
    ask2 e o (OBuild true) = Ok (V2Built f [] ax ay) /\
    forall pts bad ck, (bad && ck)%bool = false ->
      (forall ms mm, ask2 e o (OTransform pts bad ck (MIndices2 ms mm)) =
         rfmap (fun l => V2Values (VInd l)) (rmap (fun p => transform2_indices ax ay (e_cx e) (e_cy e) f ms mm (fst p) (snd p)) pts)) /\
      (forall ms mm, ask2 e o (OTransform pts bad ck (MColumn ms mm)) =
         rfmap (fun l => V2Values (VCol l)) (rmap (fun p => transform2_rate ax ay (e_cx e) (e_cy e) f ms mm (fst p) (snd p)) pts)).
Proof.
  intros e h o0 outs d check o K H F ax ay. destruct (after_fit e o0 d check o F) as (sx & sy & t & f & m & n & Px & Py & G & FK & A1 & _ & A3 & A4 & A5 & A6 & _).
  destruct (answers_after e o d f _ m n A1 A3 A4 A5 A6) as (T1 & T2 & T3 & T4). rewrite K in T1, T3, T4. cbn [binary_kind kd_var kd_column] in T1, T3, T4.
  exists sx, sy, f, m, n. split; [exact Px|]. split; [exact Py|]. split; [|split; [exact T1|split; [exact T2|split; [exact T3|exact T4]]]].
  unfold fit_kind in FK. rewrite K in FK. cbn [binary_kind kd_clean kd_first kd_second kd_ok kd_rates kd_records kd_info kd_special kd_missing] in FK.
  destruct (e_grow e) as [g|].
  - destruct G as (t' & G & ->). exists t'. split; [exact G|]. unfold fit2_cart. destruct t'; [discriminate FK|exact FK].
  - subst t. exact FK.
Qed.
Print Assumptions C86_binary_results.

(** The same for ContinuousOptimalBinning2D (fit3: C60; fit3_cart: C61). *)
Theorem C86_continuous_results : forall (e : env2 sample3) h o0 outs d check o, e_kind e = continuous_kind ->
  exec2 e new2 h = (o0, outs) -> step2 e o0 (OFit d check) = (o, Ok V2None) ->
  let ax := fit_axis_x e d in let ay := fit_axis_y e d in
  exists sx sy f m n, e_pre_x e (List.length (d_samples d)) ax (clean_of e d) = Ok sx /\ e_pre_y e (List.length (d_samples d)) ay (clean_of e d) = Ok sy /\
    match e_grow e with
    | None => fit3 ax ay (e_cx e) (e_cy e) (fun _ => sx) (fun _ => sy) (e_size e (List.length (d_samples d))) (solution_of e) (e_P0 e) (d_samples d) = Ok f
    | Some g => exists t, g sx sy ax ay (clean_of e d) = Ok t /\
        fit3_cart ax ay (e_cx e) (e_cy e) (fun _ => sx) (fun _ => sy) (fun _ => t) (e_size e (List.length (d_samples d))) (solution_of e) (e_P0 e) (d_samples d) = Ok f
    end /\
    ask2 e o OTable = Ok (V2Table (Some (Tab2D (k_fit f) (k_var f) ax ay m n false))) /\
    ask2 e o OSplits = Ok (V2Splits (splits_shown ax (t_bx (k_fit f))) (splits_shown ay (t_by (k_fit f)))) /\
    ask2 e o (OBuild true) = Ok (V2Built (k_fit f) (k_var f) ax ay) /\
    forall pts bad ck, (bad && ck)%bool = false ->
      (forall ms mm, ask2 e o (OTransform pts bad ck (MIndices2 ms mm)) =
         rfmap (fun l => V2Values (VInd l)) (rmap (fun p => transform3_indices ax ay (e_cx e) (e_cy e) f ms mm (fst p) (snd p)) pts)) /\
      (forall ms mm, ask2 e o (OTransform pts bad ck (MColumn ms mm)) =
         rfmap (fun l => V2Values (VCol l)) (rmap (fun p => transform3_mean ax ay (e_cx e) (e_cy e) f ms mm (fst p) (snd p)) pts)).
Proof.
  intros e h o0 outs d check o K H F ax ay. destruct (after_fit e o0 d check o F) as (sx & sy & t & f & m & n & Px & Py & G & FK & A1 & _ & A3 & A4 & A5 & A6 & _).
  destruct (answers_after e o d f _ m n A1 A3 A4 A5 A6) as (T1 & T2 & T3 & T4). rewrite K in T1, T3, T4. cbn [continuous_kind kd_column] in T4.
  set (std := kd_var continuous_kind _ _ _ _ _ _ _ _) in *.
  exists sx, sy, {| k_fit := f; k_var := std |}, m, n. split; [exact Px|]. split; [exact Py|]. split; [|split; [exact T1|split; [exact T2|split; [exact T3|exact T4]]]].
  unfold fit_kind in FK. rewrite K in FK. cbn [continuous_kind kd_clean kd_first kd_second kd_ok kd_rates kd_records kd_info kd_special kd_missing] in FK.
  unfold std, clean_of, ax, ay. rewrite K. cbn [continuous_kind kd_var kd_clean kd_special kd_missing].
  destruct (e_grow e) as [g|].
  - destruct G as (t' & G & ->). exists t'. split; [unfold clean_of in G; rewrite K in G; exact G|]. unfold fit3_cart. destruct t' as [|ox thr l r]; [discriminate FK|].
    cbn [rd_of] in FK. destruct (solution_of e _ _ _ _ _) as [sol|]; [|discriminate FK]. rewrite FK. reflexivity.
  - subst t. unfold fit3. cbn [rd_of] in FK. destruct (solution_of e _ _ _ _ _) as [sol|]; [|discriminate FK]. rewrite FK. reflexivity.
Qed.
Print Assumptions C86_continuous_results.

(** So, with a solver that respects its constraints and the strategy grid, after any history a point of known values without
    special code lies in exactly one of the bins shown, and transform(metric="indices") returns that bin. *)
Theorem C86_plane_after_any_history : forall (e : env2 sample2) c h o0 outs d check o, e_kind e = binary_kind -> e_grow e = None ->
  sound_solver2 c (solution_of e) -> (forall k, List.length (e_P0 e k) = k) ->
  (forall k a l s, e_pre_x e k a l = Ok s -> nondecreasing s) -> (forall k a l s, e_pre_y e k a l = Ok s -> nondecreasing s) ->
  exec2 e new2 h = (o0, outs) -> step2 e o0 (OFit d check) = (o, Ok V2None) ->
  exists bx by', ask2 e o OSplits = Ok (V2Splits (splits_shown (fit_axis_x e d) bx) (splits_shown (fit_axis_y e d) by')) /\
  forall x y ms mm ck, known (fit_axis_x e d) x -> known (fit_axis_y e d) y -> no_code (e_cx e) x -> no_code (e_cy e) y ->
  exists b, (b < List.length bx)%nat /\ shows (fit_axis_x e d) bx b x /\ shows (fit_axis_y e d) by' b y /\
    (forall b', shows (fit_axis_x e d) bx b' x -> shows (fit_axis_y e d) by' b' y -> b' = b) /\
    ask2 e o (OTransform [(x, y)] false ck (MIndices2 ms mm)) = Ok (V2Values (VInd [Z.of_nat b])).
Proof.
  intros e c h o0 outs d check o K G HS HP Hx Hy H F.
  destruct (C86_binary_results e h o0 outs d check o K H F) as (sx & sy & f & m & n & Px & Py & FF & _ & T2 & _ & T4). rewrite G in FF.
  exists (t_bx f), (t_by f). split; [exact T2|]. intros x y ms mm ck K1 K2 C1 C2.
  destruct (C46_bins_partition_plane _ _ _ _ _ _ _ c _ _ _ _ ms mm x y FF HS HP (fun _ => Hx _ _ _ _ Px) (fun _ => Hy _ _ _ _ Py) K1 K2 C1 C2) as (b & B1 & B2 & B3 & B4 & B5).
  exists b. split; [exact B1|]. split; [exact B2|]. split; [exact B3|]. split; [exact B4|].
  rewrite (proj1 (T4 [(x, y)] false ck eq_refl) ms mm). cbn [rmap fst snd]. rewrite B5. reflexivity.
Qed.
Print Assumptions C86_plane_after_any_history.

(** ** A fit that raises *)
(** The table is kept (with whether it was built). A fit that stops before the optimiser changes no answer. If both variables are
    numerical no answer about the bins changes. The status changes exactly when the solver returned, and then the exception is IndexError. *)
Theorem C86_failed_refit : forall S (e : env2 S) cfg h o outs d check o' k, sound_solver2 cfg (solution_of e) -> (forall k, List.length (e_P0 e k) = k) ->
  exec2 e new2 h = (o, outs) -> step2 e o (OFit d check) = (o', Err k) ->
  (forall c, c = OTable \/ c = OAnalysis \/ (exists v, c = OBuild v) \/ (exists p, c = OToJson p) -> ask2 e o' c = ask2 e o c) /\
  (~ reaches_optimiser e d check -> forall c, ~ is_fit c -> ask2 e o' c = ask2 e o c) /\
  (e_cat_x e = false -> e_cat_y e = false -> forall c, reports_bins c -> ask2 e o' c = ask2 e o c) /\
  (ask2 e o' OStatus = ask2 e o OStatus \/
   k = IndexError /\ exists m n rd er nr s sol, e_solve e m n rd er nr = Some (s, sol) /\ (b_fitted o = true -> ask2 e o' OStatus = Ok (V2Status (Some s)))).
Proof.
  intros S e cfg h o outs d check o' k HS HP H F.
  assert (X : (o' = o /\ fit_2d e d check = StBefore k) \/
    (exists a, o' = set_early o a /\ fit_2d e d check = StSolver a k) \/
    (exists a, o' = set_solved o a /\ fit_2d e d check = StIndex a /\ k = IndexError)).
  { cbn [step2] in F. destruct (fit_cases e d check) as [[k0 E]|(sx & sy & t & _ & _ & _ & E)]; rewrite E in F |- *.
    - cbn [after2] in F. injection F as <- ->. left. split; reflexivity.
    - destruct (optimise2 e _ _ _ _ _ _ _) as [k0|a k0|a|a c k0|a f std m n] eqn:O.
      + cbn [after2] in F. injection F as <- ->. left. split; reflexivity.
      + cbn [after2] in F. injection F as <- ->. right. left. exists a. split; reflexivity.
      + cbn [after2] in F. injection F as <- <-. right. right. exists a. repeat split.
      + exfalso. exact (optimise_no_splits e cfg _ _ _ _ _ _ _ _ _ _ HS HP O).
      + discriminate F. }
  split; [|split; [|split]].
  - intros c Hc. destruct X as [[-> _]|[(a & -> & _)|(a & -> & _)]]; [reflexivity| |]; unfold ask2;
      destruct Hc as [-> |[-> |[[v ->]|[p ->]]]]; cbn [step2 snd set_early set_solved b_fitted b_table]; try reflexivity;
      (destruct (b_fitted o); cbn [negb]; [|reflexivity]); (destruct (b_table o) as [[f std ax ay m n bt|z]|]; [destruct v|idtac|idtac]; reflexivity).
  - intros NR c _. destruct X as [[-> _]|X]; [reflexivity|]. exfalso. apply NR. clear NR.
    assert (E : forall k', fit_2d e d check <> StBefore k') by (intros k' K; rewrite K in X; destruct X as [(a & _ & X)|(a & _ & X & _)]; discriminate X).
    split; [|split].
    + destruct (e_valid e) eqn:V; [reflexivity|]. exfalso. apply (E ValueError). unfold fit_2d. rewrite V. reflexivity.
    + destruct (d_bad d && check)%bool eqn:V; [|reflexivity]. exfalso. destruct (e_valid e) eqn:V2; apply (E ValueError); unfold fit_2d; rewrite V2; [rewrite V|]; reflexivity.
    + destruct (fit_cases e d check) as [[k0 E0]|(sx & sy & t & Px & Py & G & _)]; [destruct (E _ E0)|].
      exists sx, sy. split; [exact Px|]. split; [exact Py|]. destruct (e_grow e); [|exact I]. destruct G as (t' & G & _). exists t'. exact G.
  - intros Nx Ny c Hc. destruct X as [[-> _]|[(a & -> & _)|(a & -> & _)]]; [reflexivity| |]; unfold ask2;
      destruct c; try contradiction; cbn [step2 snd set_early set_solved b_fitted b_table b_splits b_cats]; try reflexivity;
      try (rewrite Nx, Ny; reflexivity);
      try (unfold transform_2d; cbn [set_early set_solved b_fitted b_table b_splits b_cats b_counts]; rewrite Nx, Ny; reflexivity);
      (destruct (b_fitted o); cbn [negb]; [|reflexivity]); (destruct (b_table o) as [[f std ax ay m0 n bt|z]|]; [destruct valid|idtac|idtac]; reflexivity).
  - destruct X as [[-> _]|[(a & -> & _)|(a & -> & E & ->)]]; [left; reflexivity|left; reflexivity|]. right. split; [reflexivity|].
    destruct (fit_cases e d check) as [[k0 E0]|(sx & sy & t & _ & _ & _ & E0)]; rewrite E0 in E; [discriminate E|]. unfold optimise2 in E.
    destruct t as [[|ox thr l r]|]; [discriminate E| |];
      (match type of E with match e_solve e ?m ?n ?rd ?er ?nr with _ => _ end = _ => destruct (e_solve e m n rd er nr) as [[s sol]|] eqn:Es; [|discriminate E]; exists m, n, rd, er, nr, s, sol end);
      (split; [exact Es|]); intros Fo; unfold ask2; cbn [step2 snd set_solved set_early b_fitted b_status]; rewrite Fo; cbn [negb];
      cbv zeta in E; (destruct (_ && _)%bool; [injection E as <-; reflexivity|]); (destruct (rmap _ _); [|discriminate E]); (destruct (rmap _ _); discriminate E).
Qed.
Print Assumptions C86_failed_refit.

(** ** Methods inherited from OptimalBinning *)
(** to_json never saves a two-dimensional binning: unless a file was read before, it raises, whatever was fitted. *)
Theorem C86_to_json_never_works : forall S (e : env2 S) h o outs path v, exec2 e new2 h = (o, outs) ->
  (~ exists c, In c h /\ is_read c) -> ask2 e o (OToJson path) <> Ok v.
Proof.
  intros S e h o outs path v H NR. assert (G : forall h o o' outs, exec2 e o h = (o', outs) -> (forall z, b_table o <> Some (Tab1D z)) ->
    (~ exists c, In c h /\ is_read c) -> forall z, b_table o' <> Some (Tab1D z)).
  { clear. induction h as [|c h IH]; intros o o' outs H I NR; [injection H as <- _; exact I|]. apply exec2_cons in H. destruct H as (o1 & v & l & ST & E & _).
    refine (IH _ _ _ E _ _); [|intros (c' & K & R); apply NR; exists c'; split; [now right|exact R]].
    assert (NC : ~ is_read c) by (intros R; apply NR; exists c; split; [now left|exact R]).
    assert (FI : forall d check, forall z, b_table (fst (after2 e o (fit_2d e d check))) <> Some (Tab1D z)).
    { intros d check z. destruct (fit_2d e d check); cbn [after2 fst set_early set_solved b_table]; try apply I. discriminate. }
    destruct c; cbn [step2] in ST; try (injection ST as <- _; exact I).
    - specialize (FI d check). destruct (after2 e o (fit_2d e d check)). injection ST as <- _. exact FI.
    - specialize (FI d check). destruct (after2 e o (fit_2d e d check)). injection ST as <- _. exact FI.
    - exfalso. apply NC. eexists. reflexivity.
    - destruct (b_fitted o); cbn [negb] in ST; [|injection ST as <- _; exact I]. destruct (b_table o) as [[f std ax ay m n bt|z]|] eqn:T; try (injection ST as <- _; rewrite T; exact I).
      destruct valid; cbn [negb] in ST; injection ST as <- _; [cbn [b_table]; discriminate|rewrite T; discriminate]. }
  specialize (G _ _ _ _ H ltac:(discriminate) NR). unfold ask2. cbn [step2 snd]. destruct path; cbn [negb]; [|discriminate].
  destruct (b_fitted o); cbn [negb]; [|discriminate]. destruct (b_table o) as [[f std ax ay m n bt|z]|]; try discriminate. exfalso. exact (G z eq_refl).
Qed.
Print Assumptions C86_to_json_never_works.

(** read_json: the table becomes a one-dimensional one, and nothing else changes; on an object that was never fitted the status is
    None, transform raises TypeError and information() AttributeError, although the object now counts as fitted - even when the
    file could not be read. *)
Theorem C86_read_json : forall S (e : env2 S) h o outs content o' r, exec2 e new2 h = (o, outs) -> step2 e o (OReadJson content) = (o', r) ->
  (forall z, content = Ok z -> ask2 e o' OTable = Ok (V2Table (Some (Tab1D z)))) /\
  ((exists c, In c h /\ (fits2 e c \/ is_read c)) ->
     forall c, c = OSplits \/ c = OStatus \/ (exists p b ck m, c = OTransform p b ck m) \/ (exists l, c = OInformation l) -> ask2 e o' c = ask2 e o c) /\
  (h = [] -> ask2 e o' OStatus = Ok (V2Status None) /\ ask2 e o' (OInformation true) = Err OtherError /\
     forall pts bad ck ms mm, (bad && ck)%bool = false -> ask2 e o' (OTransform pts bad ck (MIndices2 ms mm)) = Err TypeError).
Proof.
  intros S e h o outs content o' r H F. cbn [step2] in F. split; [|split].
  - intros z ->. injection F as <- _. reflexivity.
  - intros FI. pose proof (exec_fitted2 e h _ _ _ H) as FF. assert (FO : b_fitted o = true) by (apply FF; now right).
    intros c Hc. destruct content as [z|k]; injection F as <- _; unfold ask2;
      destruct Hc as [-> |[-> |[(p & b & ck & m & ->)|[l ->]]]]; cbn [step2 snd]; unfold transform_2d; cbn [b_fitted b_splits b_counts b_cats b_status b_name b_prebins b_nref]; rewrite FO; reflexivity.
  - intros ->. injection H as <- _. destruct content as [z|k]; injection F as <- _; unfold ask2; cbn [step2 snd b_fitted b_status b_name negb new2];
      (split; [reflexivity|]); (split; [reflexivity|]); intros pts bad ck ms mm B; unfold transform_2d; cbn [b_fitted negb]; rewrite B; reflexivity.
Qed.
Print Assumptions C86_read_json.

(** ** The table of the last fit *)
(** analysis() needs build() first - but it raises AttributeError, not NotFittedError, until then; a refit makes a new table. *)
Theorem C86_analysis_needs_build : forall S (e : env2 S) h o0 outs d check o h2 o2 outs2, exec2 e new2 h = (o0, outs) ->
  step2 e o0 (OFit d check) = (o, Ok V2None) -> exec2 e o h2 = (o2, outs2) -> (forall c, In c h2 -> ~ is_fit c /\ ~ is_read c) ->
  exists f std ax ay, ask2 e o (OBuild true) = Ok (V2Built f std ax ay) /\
    ask2 e o2 (OBuild true) = Ok (V2Built f std ax ay) /\
    ((~ In (OBuild true) h2) -> ask2 e o2 OAnalysis = Err OtherError) /\
    (In (OBuild true) h2 -> ask2 e o2 OAnalysis = rfmap V2Analysis (e_analysis e f std)).
Proof.
  intros S e h o0 outs d check o h2 o2 outs2 H F X NF.
  destruct (after_fit e o0 d check o F) as (sx & sy & t & f & m & n & _ & _ & _ & _ & A1 & _ & _ & _ & _ & A6 & _). cbv zeta in A6.
  set (std := kd_var _ _ _ _ _ _ _ _ _) in A6. exists f, std, (fit_axis_x e d), (fit_axis_y e d).
  assert (G : forall h2 oo o2 outs2 bt, exec2 e oo h2 = (o2, outs2) -> b_fitted oo = true -> b_table oo = Some (Tab2D f std (fit_axis_x e d) (fit_axis_y e d) m n bt) ->
    (forall c, In c h2 -> ~ is_fit c /\ ~ is_read c) -> b_fitted o2 = true /\
    exists bt', b_table o2 = Some (Tab2D f std (fit_axis_x e d) (fit_axis_y e d) m n bt') /\ (bt' = true <-> bt = true \/ In (OBuild true) h2)).
  { clear. induction h2 as [|c h2 IH]; intros oo o2 outs2 bt H Fo T NF.
    - injection H as <- _. split; [exact Fo|]. exists bt. split; [exact T|]. cbn. tauto.
    - apply exec2_cons in H. destruct H as (o1 & v & l & ST & E & _). destruct (NF c (or_introl eq_refl)) as [N1 N2].
      assert (NF' : forall c', In c' h2 -> ~ is_fit c' /\ ~ is_read c') by (intros c' K; apply NF; now right).
      assert (P : o1 = oo \/ c = OBuild true). { destruct c; cbn [step2] in ST; try (injection ST as <- _; now left).
        - exfalso. now apply N1. - exfalso. now apply N1. - exfalso. apply N2. eexists. reflexivity.
        - rewrite Fo, T in ST. destruct valid; [now right|]. cbn [negb] in ST. injection ST as <- _. now left. }
      destruct (match c with OBuild true => true | _ => false end) eqn:EB.
      + assert (c = OBuild true) by (destruct c; try discriminate EB; destruct valid; [reflexivity|discriminate EB]). subst c.
        cbn [step2] in ST. rewrite Fo, T in ST. cbn [negb] in ST. injection ST as <- _.
        destruct (IH _ _ _ true E eq_refl eq_refl NF') as (F2 & bt' & T2 & B2). split; [exact F2|]. exists bt'. split; [exact T2|]. rewrite B2. cbn [In]. tauto.
      + assert (NB : c <> OBuild true) by (intros ->; discriminate EB). destruct P as [-> |P]; [|contradiction].
        destruct (IH _ _ _ bt E Fo T NF') as (F2 & bt' & T2 & B2). split; [exact F2|]. exists bt'. split; [exact T2|]. rewrite B2. cbn [In].
        split; [tauto|]. intros [K|[K|K]]; [tauto|contradiction|tauto]. }
  destruct (G _ _ _ _ _ X A1 A6 NF) as (F2 & bt' & T2 & B2). unfold ask2. cbn [step2 snd]. rewrite A1, A6, F2, T2. cbn [negb snd].
  split; [reflexivity|]. split; [reflexivity|]. split.
  - intros NI. destruct bt'; [|reflexivity]. destruct (proj1 B2 eq_refl) as [K|K]; [discriminate K|contradiction].
  - intros I. rewrite (proj2 B2 (or_intror I)). reflexivity.
Qed.
Print Assumptions C86_analysis_needs_build.

(** ** Concrete cases: x categorical with categories 10 and 20, most frequent first, one row of two cells; the solver raises when
    there are more than 6 samples (or reports an infeasible model: cp_2d.py:104). *)
Definition ex_any_cfg : cfg2 := {| trend_x := None; trend_y := None; min_bins2 := None; max_bins2 := None; diff_x := 0; diff_y := 0; gamma2 := false |}.
Definition no_limits : size_cfg := {| min_size := Some 1; max_size := None; min_ev := None; max_ev := None; min_nev := None; max_nev := None |}.
Definition freq (z : Z) (l : list sample2) : nat := List.length (filter (fun s => match s_x s with XNum v => v =? z | XNaN => false end) l).
Definition ex_cats (l : list sample2) : list Z := if Nat.leb (freq 20 l) (freq 10 l) then [10; 20] else [20; 10].
Definition ex_env2 (cat : bool) : env2 sample2 :=
  mkE2 _ binary_kind true (Some [XNum 99]) None cat false ex_cats (fun _ => []) (fun n _ _ => Ok (if Nat.leb n 2 then [] else if cat then [1] else [15])) (fun _ _ _ => Ok [])
    None (fun _ => no_limits)
    (fun m n rd er nr => if 6 <? hd 0 nr + last nr 0 then None else
       option_map (fun s => (if Nat.eqb (m * n) 1 then "FEASIBLE" else "OPTIMAL", s)) (brute ex_any_cfg m n rd er nr))
    (fun k => repeat 7%nat k) (fun f _ => Ok (Z.of_nat (List.length (t_bx f)))) (fun _ => Ok tt).
Definition s2 (x y z : Z) : sample2 := (XNum x, XNum y, if z =? 0 then Y0 else Y1).
Definition ex_small : list sample2 := [s2 10 1 0; s2 10 2 1; s2 10 3 0; s2 20 4 1; s2 20 5 1; s2 20 6 0].
Definition ex_large : list sample2 := [s2 20 1 0; s2 20 2 1; s2 20 3 0; s2 20 4 1; s2 20 5 1; s2 10 1 0; s2 10 2 0; s2 10 2 1].
Definition ex_two : list sample2 := [s2 10 1 0; s2 20 2 1].
Definition ex_call (l : list sample2) : op2 sample2 := OFit (mkD2 _ l false) true.
Definition ex_index : op2 sample2 := OTransform [(XNum 10, XNum 3); (XNum 20, XNum 3)] false true (MIndices2 (Const true (-1)) (Const true (-2))).

(** Wanted: a refit that raises changes no answer about the bins. With a categorical variable it does: the categories are
    reassigned (667) before the solver raises, the splits are not, so the same two points swap bins and splits changes, while
    binning_table is the old one. *)
Theorem C86_failed_refit_swaps_categories_refuted : exists (e : env2 sample2) d1 d2 o1 o2 k,
  step2 e new2 (OFit d1 true) = (o1, Ok V2None) /\ step2 e o1 (OFit d2 true) = (o2, Err k) /\ ask2 e o2 OTable = ask2 e o1 OTable /\
  ask2 e o1 ex_index = Ok (V2Values (VInd [0; 1])) /\ ask2 e o2 ex_index = Ok (V2Values (VInd [1; 0])) /\
  ask2 e o1 OSplits = Ok (V2Splits (Categories [[10]; [20]]) (Bounds (Some [(None, None); (None, None)]))) /\
  ask2 e o2 OSplits = Ok (V2Splits (Categories [[20]; [10]]) (Bounds (Some [(None, None); (None, None)]))).
Proof.
  exists (ex_env2 true), (mkD2 _ ex_small false), (mkD2 _ ex_large false). do 3 eexists.
  split; [vm_compute; reflexivity|]. split; [vm_compute; reflexivity|]. vm_compute. repeat split.
Qed.
Print Assumptions C86_failed_refit_swaps_categories_refuted.

(** Wanted: status describes the fit whose bins the object holds. After a refit that raises it can describe the failed one. *)
Theorem C86_failed_refit_status_refuted : exists (e : env2 sample2) d1 d2 o1 o2,
  step2 e new2 (OFit d1 true) = (o1, Ok V2None) /\ step2 e o1 (OFit d2 true) = (o2, Err IndexError) /\
  ask2 e o1 OStatus = Ok (V2Status (Some "OPTIMAL")) /\ ask2 e o2 OStatus = Ok (V2Status (Some "FEASIBLE")) /\
  ask2 e o1 (OInformation true) = Ok (V2Info (Some "OPTIMAL") (Some 2%nat) 0) /\ ask2 e o2 (OInformation true) = Ok (V2Info (Some "FEASIBLE") (Some 1%nat) 0) /\
  (forall c, reports_bins c -> ask2 e o2 c = ask2 e o1 c).
Proof.
  exists (ex_env2 false), (mkD2 _ ex_small false), (mkD2 _ ex_two false). do 2 eexists.
  split; [vm_compute; reflexivity|]. split; [vm_compute; reflexivity|]. split; [vm_compute; reflexivity|]. split; [vm_compute; reflexivity|].
  split; [vm_compute; reflexivity|]. split; [vm_compute; reflexivity|].
  intros c Hc. destruct c; try contradiction; try reflexivity. destruct valid; reflexivity.
Qed.
Print Assumptions C86_failed_refit_status_refuted.

(** Wanted: an object that never obtained bins is not fitted. read_json of a file that cannot be read makes it so. *)
Theorem C86_failed_read_json_counts_as_fitted_refuted : forall S (e : env2 S) k,
  exists o, step2 e new2 (OReadJson (Err k)) = (o, Err k) /\ ask2 e o OStatus = Ok (V2Status None) /\ ask2 e o OTable = Ok (V2Table None).
Proof. intros S e k. eexists. split; [reflexivity|]. split; reflexivity. Qed.
Print Assumptions C86_failed_read_json_counts_as_fitted_refuted.

Example C86_hyps_met : exists (e : env2 sample2) h o0 outs d o c f, e_kind e = binary_kind /\ e_grow e = None /\ exec2 e new2 h = (o0, outs) /\
  step2 e o0 (OFit d true) = (o, Ok V2None) /\ sound_solver2 c (solution_of e) /\ (forall k, List.length (e_P0 e k) = k) /\
  (forall k a l s, e_pre_x e k a l = Ok s -> nondecreasing s) /\ (forall k a l s, e_pre_y e k a l = Ok s -> nondecreasing s) /\
  In (Err OtherError) outs /\ In (Err IndexError) outs /\ reaches_optimiser e (mkD2 _ ex_large false) true /\
  ask2 e o ex_index = Ok (V2Values (VInd [0; 1])) /\ ask2 e o (OBuild true) = Ok (V2Built f [] ANum ANum) /\ t_ev f = [1; 2; 0; 0] /\
  ask2 e o OAnalysis = Err OtherError /\ ask2 e (fst (step2 e o (OBuild true))) OAnalysis = Ok (V2Analysis 2).
Proof.
  exists (ex_env2 false), [ex_call ex_large; ex_call ex_small; ex_call ex_large; ex_call ex_two]. do 2 eexists. exists (mkD2 _ ex_small false). eexists. exists ex_any_cfg. eexists.
  split; [reflexivity|]. split; [reflexivity|]. split; [vm_compute; reflexivity|]. split; [vm_compute; reflexivity|].
  split. { intros m n rd er nr sol K. unfold solution_of, ex_env2 in K. cbn [e_solve] in K. destruct (6 <? _); [discriminate K|].
    destruct (brute ex_any_cfg m n rd er nr) as [s|] eqn:B; [|discriminate K]. injection K as <-. exact (brute_sound _ _ _ _ _ _ _ B). }
  split; [intros k; apply repeat_length|].
  split. { intros k a l s K. cbn [ex_env2 e_pre_x] in K. destruct (Nat.leb k 2); injection K as <-; repeat constructor. }
  split. { intros k a l s K. cbn [ex_env2 e_pre_y] in K. injection K as <-. constructor. }
  split; [now left|]. split; [now (right; right; right; left)|].
  split. { split; [reflexivity|]. split; [reflexivity|]. do 2 eexists. split; [reflexivity|]. split; [reflexivity|exact I]. }
  split; [vm_compute; reflexivity|]. split; [vm_compute; reflexivity|]. split; [reflexivity|]. split; vm_compute; reflexivity.
Qed.
