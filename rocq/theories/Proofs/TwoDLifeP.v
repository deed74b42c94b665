From Coq Require Import List ZArith QArith Bool Arith String Lia.
From Verif Require Import Model.Arr Model.Core Model.TwoD Model.TwoDCont Model.TwoDCart Model.TwoDLife Spec.CoreSpec Spec.TwoDSpec Spec.TwoDCartSpec
  Spec.TwoDLifeSpec Proofs.ArrP Proofs.CoreP Proofs.TwoDP Proofs.TwoDQ Proofs.TwoDR Proofs.TwoDCartQ.
Import ListNotations.
Open Scope Z_scope.

(** ** one fit *)
Definition rd_of {S} (e : env2 S) (t : option tree) (m n : nat) (ok : list nat -> bool) : rdata :=
  match t with None => grid_rdata m n ok | Some t' => cart_rdata m n t' (e_P0 e (m * n)%nat) ok end.
(** the fit of Model.TwoD / TwoDCont / TwoDCart as one function of the kind *)
Definition fit_kind {S} (e : env2 S) (ax ay : axis) (sx sy : list Z) (t : option tree) (data : list S) : res fitted2 :=
  let kd := e_kind e in
  let clean := filter (kd_clean kd (e_cx e) (e_cy e)) data in
  let n := Datatypes.S (List.length sx) in let m := Datatypes.S (List.length sy) in
  let f1 := kd_first kd ax ay sx sy clean in let f2 := kd_second kd ax ay sx sy clean in
  let rd := rd_of e t m n (kd_ok kd (e_size e (List.length data)) f1 f2) in
  match t with
  | Some Leaf => Err ValueError
  | _ =>
  match solution_of e m n rd (kd_rates kd f1 f2 (rd_rows rd)) (kd_records kd f1 f2 (rd_rows rd)) with
  | None => Err OtherError
  | Some sol => finish2 n sx sy f2 f1 (rd_rows rd) sol (e_P0 e (m * n)%nat) (kd_info kd (filter (kd_special kd (e_cx e) (e_cy e)) data))
                  (kd_info kd (filter (kd_missing kd) data))
  end end.
Lemma optimise_done {S} (e : env2 S) ax ay sx sy t data a sv f std m n : optimise2 e ax ay sx sy t data a = StDone sv f std m n ->
  fit_kind e ax ay sx sy t data = Ok f /\ sv_early sv = a /\ m = Datatypes.S (List.length sy) /\ n = Datatypes.S (List.length sx) /\
  std = kd_var (e_kind e) ax ay sx sy (filter (kd_clean (e_kind e) (e_cx e) (e_cy e)) data) (t_rows f)
          (filter (kd_special (e_kind e) (e_cx e) (e_cy e)) data) (filter (kd_missing (e_kind e)) data).
Proof.
  unfold optimise2, fit_kind, solution_of, rd_of.
  set (n0 := Datatypes.S (List.length sx)). set (m0 := Datatypes.S (List.length sy)).
  set (f1 := kd_first _ _ _ _ _ _). set (f2 := kd_second _ _ _ _ _ _).
  assert (G : forall rd, match e_solve e m0 n0 rd (kd_rates (e_kind e) f1 f2 (rd_rows rd)) (kd_records (e_kind e) f1 f2 (rd_rows rd)) with
    | None => StSolver a OtherError
    | Some (status, sol) =>
          let sv := mkSv a status (Z.of_nat (m0 * n0 * (m0 + 1) * (n0 + 1)) / 4 - Z.of_nat (List.length (rd_rows rd))) in
          let sel := select sol (rd_rows rd) in
          if (same_lengths (rd_rows rd) && negb (Nat.eqb (List.length sel) 0))%bool then StIndex sv else
          let P := assign 0 sel (e_P0 e (m0 * n0)%nat) in
          let counts := (app (map (cell_sum f1) sel) [fst (kd_info (e_kind e) (filter (kd_special (e_kind e) (e_cx e) (e_cy e)) data)); fst (kd_info (e_kind e) (filter (kd_missing (e_kind e)) data))],
                         app (map (cell_sum f2) sel) [snd (kd_info (e_kind e) (filter (kd_special (e_kind e) (e_cx e) (e_cy e)) data)); snd (kd_info (e_kind e) (filter (kd_missing (e_kind e)) data))]) in
          match rmap (fun i => bin_interval P i (fun c => Nat.modulo c n0) sx) (seq 0 (List.length sel)) with
          | Err k => StSplits sv counts k
          | Ok bx =>
              match rmap (fun i => bin_interval P i (fun c => Nat.div c n0) sy) (seq 0 (List.length sel)) with
              | Err k => StSplits sv counts k
              | Ok by' => StDone sv {| t_rows := sel; t_bx := bx; t_by := by'; t_nev := fst counts; t_ev := snd counts; t_P := P |}
                            (kd_var (e_kind e) ax ay sx sy (filter (kd_clean (e_kind e) (e_cx e) (e_cy e)) data) sel
                              (filter (kd_special (e_kind e) (e_cx e) (e_cy e)) data) (filter (kd_missing (e_kind e)) data)) m0 n0
              end
          end
    end = StDone sv f std m n ->
    match option_map snd (e_solve e m0 n0 rd (kd_rates (e_kind e) f1 f2 (rd_rows rd)) (kd_records (e_kind e) f1 f2 (rd_rows rd))) with
    | None => Err OtherError
    | Some sol => finish2 n0 sx sy f2 f1 (rd_rows rd) sol (e_P0 e (m0 * n0)%nat) (kd_info (e_kind e) (filter (kd_special (e_kind e) (e_cx e) (e_cy e)) data))
                  (kd_info (e_kind e) (filter (kd_missing (e_kind e)) data))
    end = Ok f /\ sv_early sv = a /\ m = m0 /\ n = n0 /\
    std = kd_var (e_kind e) ax ay sx sy (filter (kd_clean (e_kind e) (e_cx e) (e_cy e)) data) (t_rows f)
          (filter (kd_special (e_kind e) (e_cx e) (e_cy e)) data) (filter (kd_missing (e_kind e)) data)).
  { intros rd. destruct (e_solve e m0 n0 rd _ _) as [[status sol]|]; [|discriminate]. cbn [option_map snd]. cbv zeta. unfold finish2.
    destruct (_ && _)%bool; [discriminate|]. unfold rbind. destruct (rmap _ _) as [bx|]; [|discriminate]. destruct (rmap _ _) as [by'|]; [|discriminate].
    intros H. injection H as <- <- <- <- <-. cbn [t_rows sv_early fst snd]. repeat split. }
  destruct t as [[|ox thr l r]|]; [discriminate| |]; intros H; apply G in H; exact H.
Qed.
(** with a sound solver the intervals of the bins can always be read off the solution *)
Lemma rd_rows_rects {S} (e : env2 S) t m n ok : (0 < n)%nat -> (forall k, List.length (e_P0 e k) = k) ->
  exists rs, rd_rows (rd_of e t m n ok) = map (cells n) rs /\ forall r, In r rs -> rect_ok m n r.
Proof.
  intros Hn HP. destruct t as [t|]; cbn [rd_of].
  - destruct (cart_rects m n t (e_P0 e (m * n)) ok Hn (HP _)) as (rs & E & H). exists rs. split; [exact E|]. intros r I. apply (H r I).
  - exists (rects_of m n ok). split; [reflexivity|]. intros r I. now apply rects_of_In in I as [? _].
Qed.
Lemma optimise_no_splits {S} (e : env2 S) c ax ay sx sy t data a sv cs k : sound_solver2 c (solution_of e) -> (forall k, List.length (e_P0 e k) = k) ->
  optimise2 e ax ay sx sy t data a <> StSplits sv cs k.
Proof.
  intros HS HP H. unfold optimise2 in H.
  set (n0 := Datatypes.S (List.length sx)) in *. set (m0 := Datatypes.S (List.length sy)) in *.
  set (f1 := kd_first _ _ _ _ _ _) in *. set (f2 := kd_second _ _ _ _ _ _) in *.
  assert (G : exists tr, (match tr with Some Leaf => False | _ => True end) /\
    let rd := rd_of e tr m0 n0 (kd_ok (e_kind e) (e_size e (List.length data)) f1 f2) in
    match e_solve e m0 n0 rd (kd_rates (e_kind e) f1 f2 (rd_rows rd)) (kd_records (e_kind e) f1 f2 (rd_rows rd)) with
    | None => False
    | Some (status, sol) =>
        same_lengths (rd_rows rd) && negb (Nat.eqb (List.length (select sol (rd_rows rd))) 0) = false /\
        forall f, finish2 n0 sx sy f2 f1 (rd_rows rd) sol (e_P0 e (m0 * n0)%nat) (0, 0) (0, 0) <> Ok f
    end).
  { exists t. destruct t as [[|ox thr l r]|]; [discriminate| |]; (split; [exact I|]); cbv zeta; cbn [rd_of];
      (destruct (e_solve e m0 n0 _ _ _) as [[status sol]|]; [|discriminate]); cbv zeta in H; unfold finish2;
      (destruct (_ && _)%bool; [discriminate|]); (split; [reflexivity|]); intros f; unfold rbind;
      (destruct (rmap _ _) as [bx|]; [|discriminate]); (destruct (rmap _ _) as [by'|]; [discriminate|discriminate]). }
  destruct G as (tr & _ & G). cbv zeta in G. destruct (rd_rows_rects e tr m0 n0 (kd_ok (e_kind e) (e_size e (List.length data)) f1 f2) (Nat.lt_0_succ _) HP) as (rs & E & Hok).
  set (rd := rd_of e tr m0 n0 _) in *. destruct (e_solve e m0 n0 rd _ _) as [[status sol]|] eqn:Es; [|exact G].
  assert (F : feasible2 m0 n0 c rd (kd_rates (e_kind e) f1 f2 (rd_rows rd)) (kd_records (e_kind e) f1 f2 (rd_rows rd)) sol).
  { apply HS. unfold solution_of. rewrite Es. reflexivity. }
  destruct F as (FL & FU & _). rewrite E in FL, FU. rewrite map_length in FL. 
  pose proof (sol_tiling_gen m0 n0 rs sol Hok (Nat.lt_0_succ _) FL FU) as T. destruct G as [G1 G2]. rewrite E in G1, G2.
  destruct (same_lengths (map (cells n0) rs)) eqn:SL.
  - cbn [andb] in G1. apply negb_false_iff, Nat.eqb_eq in G1. rewrite select_map, map_length in G1.
    destruct (proj2 T 0%nat 0%nat (Nat.lt_0_succ _) (Nat.lt_0_succ _)) as (b & r & Hb & _).
    assert (b < 0)%nat; [|lia]. rewrite <- G1. apply nth_error_Some. congruence.
  - destruct (finish2_ok sx sy f2 f1 rs sol (e_P0 e (m0 * n0)) (0, 0) (0, 0) T (HP _) SL) as (f & Hf). exact (G2 f Hf).
Qed.
(** what a fit that gets as far as the optimiser uses *)
Definition the_cats {S} (e : env2 S) (d : data2 S) : list Z * list Z :=
  (if e_cat_x e then e_cats_x e (clean_of e d) else [], if e_cat_y e then e_cats_y e (clean_of e d) else []).
Lemma axis_x_eq {S} (e : env2 S) d : axis_of (e_cat_x e) (fst (the_cats e d)) = fit_axis_x e d.
Proof. unfold axis_of, the_cats, fit_axis_x. cbn [fst]. destruct (e_cat_x e); reflexivity. Qed.
Lemma axis_y_eq {S} (e : env2 S) d : axis_of (e_cat_y e) (snd (the_cats e d)) = fit_axis_y e d.
Proof. unfold axis_of, the_cats, fit_axis_y. cbn [snd]. destruct (e_cat_y e); reflexivity. Qed.
Lemma fit_cases {S} (e : env2 S) d check :
  (exists k, fit_2d e d check = StBefore k) \/
  exists sx sy t, e_pre_x e (List.length (d_samples d)) (fit_axis_x e d) (clean_of e d) = Ok sx /\
    e_pre_y e (List.length (d_samples d)) (fit_axis_y e d) (clean_of e d) = Ok sy /\
    match e_grow e with None => t = None | Some g => exists t', g sx sy (fit_axis_x e d) (fit_axis_y e d) (clean_of e d) = Ok t' /\ t = Some t' end /\
    fit_2d e d check = optimise2 e (fit_axis_x e d) (fit_axis_y e d) sx sy t (d_samples d)
      (mkEa (the_cats e d) (Datatypes.S (List.length sx) * Datatypes.S (List.length sy))).
Proof.
  unfold fit_2d. destruct (e_valid e); cbn [negb]; [|left; eexists; reflexivity]. destruct (d_bad d && check)%bool; [left; eexists; reflexivity|].
  change (if e_cat_x e then e_cats_x e (filter (kd_clean (e_kind e) (e_cx e) (e_cy e)) (d_samples d)) else [],
          if e_cat_y e then e_cats_y e (filter (kd_clean (e_kind e) (e_cx e) (e_cy e)) (d_samples d)) else []) with (the_cats e d).
  cbv zeta. rewrite axis_x_eq, axis_y_eq. fold (clean_of e d).
  destruct (e_pre_x e _ _ _) as [sx|k]; [|left; eexists; reflexivity]. destruct (e_pre_y e _ _ _) as [sy|k]; [|left; eexists; reflexivity].
  destruct (e_grow e) as [g|].
  - destruct (g sx sy _ _ _) as [t|k] eqn:G; [|left; eexists; reflexivity]. right. exists sx, sy, (Some t). repeat split. exists t. split; [exact G|reflexivity].
  - right. exists sx, sy, None. repeat split.
Qed.
(** the categories assigned by a fit *)
Lemma optimise_early {S} (e : env2 S) ax ay sx sy t data a :
  match optimise2 e ax ay sx sy t data a with
  | StBefore _ => False | StSolver a' _ => a' = a | StIndex s => sv_early s = a | StSplits s _ _ => sv_early s = a | StDone s _ _ _ _ => sv_early s = a
  end.
Proof.
  unfold optimise2. destruct t as [[|ox thr l r]|]; [reflexivity| |];
    (destruct (e_solve e _ _ _ _ _) as [[status sol]|]; [|reflexivity]); cbv zeta;
    (destruct (_ && _)%bool; [reflexivity|]); (destruct (rmap _ _); [|reflexivity]); (destruct (rmap _ _); reflexivity).
Qed.

(** ** histories *)
Definition fit_done (s : stop2) : bool := match s with StDone _ _ _ _ _ => true | _ => false end.
Lemma after_ok {S} (e : env2 S) o s : snd (after2 e o s) = Ok tt <-> fit_done s = true.
Proof. destruct s; cbn; split; congruence. Qed.
Lemma after_fitted {S} (e : env2 S) o s : b_fitted (fst (after2 e o s)) = (b_fitted o || fit_done s)%bool.
Proof. destruct s; cbn; try (rewrite orb_false_r; reflexivity); now rewrite orb_true_r. Qed.
Lemma after_done_same {S} (e : env2 S) o o' s : fit_done s = true -> after2 e o s = after2 e o' s.
Proof. destruct s; cbn; try discriminate. reflexivity. Qed.
Lemma fits_iff {S} (e : env2 S) c : fits2 e c <->
  exists d check, (c = OFit d check \/ exists m, c = OFitTransform d check m) /\ fit_done (fit_2d e d check) = true.
Proof.
  unfold fits2, ask2. cbn [step2]. split; intros (d & check & A & B); exists d, check; (split; [exact A|]).
  - destruct (after2 e new2 (fit_2d e d check)) as [o r] eqn:E. cbn [snd] in B. apply (after_ok e new2). rewrite E. cbn [snd]. destruct r as [[]|]; [reflexivity|discriminate].
  - apply (after_ok e new2) in B. destruct (after2 e new2 (fit_2d e d check)) as [o r]. cbn [snd] in B |- *. rewrite B. reflexivity.
Qed.
Lemma step_fitted {S} (e : env2 S) o c : b_fitted (fst (step2 e o c)) = true <-> b_fitted o = true \/ fits2 e c \/ is_read c.
Proof.
  assert (N : forall c', (~ exists d check, (c' = OFit d check \/ exists m, c' = OFitTransform d check m)) -> (~ is_read c') ->
    fst (step2 e o c') = o -> (b_fitted (fst (step2 e o c')) = true <-> b_fitted o = true \/ fits2 e c' \/ is_read c')).
  { intros c' A B E. rewrite E. split; [tauto|]. intros [K|[(d & ck & K & _)|K]]; [exact K|exfalso; apply A; exists d, ck; exact K|contradiction]. }
  assert (F : forall d check c', (c' = OFit d check \/ exists m, c' = OFitTransform d check m) ->
     (b_fitted (fst (after2 e o (fit_2d e d check))) = true <-> b_fitted o = true \/ fits2 e c' \/ is_read c')).
  { intros d check c' Hc. rewrite after_fitted, orb_true_iff, fits_iff. split.
    - intros [K|K]; [now left|]. right. left. exists d, check. split; assumption.
    - intros [K|[(d' & ck & K & D)|[r K]]]; [now left| |destruct Hc as [-> |[m ->]]; discriminate K]. right.
      destruct Hc as [-> |[m ->]], K as [K|[m' K]]; try discriminate K; injection K as -> ->; try exact D. }
  destruct c.
  - specialize (F d check (OFit d check) (or_introl eq_refl)). cbn [step2]. destruct (after2 e o (fit_2d e d check)). exact F.
  - specialize (F d check (OFitTransform d check m) (or_intror (ex_intro _ m eq_refl))). cbn [step2]. destruct (after2 e o (fit_2d e d check)). exact F.
  - apply N; [intros (d & ck & [K|[m' K]]); discriminate K|intros [r K]; discriminate K|reflexivity].
  - apply N; [intros (d & ck & [K|[m' K]]); discriminate K|intros [r K]; discriminate K|reflexivity].
  - apply N; [intros (d & ck & [K|[m' K]]); discriminate K|intros [r K]; discriminate K|reflexivity].
  - apply N; [intros (d & ck & [K|[m' K]]); discriminate K|intros [r K]; discriminate K|reflexivity].
  - apply N; [intros (d & ck & [K|[m' K]]); discriminate K|intros [r K]; discriminate K|reflexivity].
  - apply N; [intros (d & ck & [K|[m' K]]); discriminate K|intros [r K]; discriminate K|reflexivity].
  - cbn [step2]. destruct content; cbn [fst b_fitted]; split; try reflexivity; intros _; right; right; eexists; reflexivity.
  - cbn [step2]. assert (NF : ~ fits2 e (OBuild valid)) by (intros (d & ck & [K|[m' K]] & _); discriminate K).
    assert (NR : ~ @is_read S (OBuild valid)) by (intros [r K]; discriminate K).
    destruct (b_fitted o) eqn:EF; cbn [negb fst]; [|rewrite EF; tauto].
    destruct (b_table o) as [[f std ax ay m n bt|z]|]; cbn [fst]; [destruct valid; cbn [negb fst b_fitted]|idtac|idtac]; rewrite ?EF; tauto.
  - apply N; [intros (d & ck & [K|[m' K]]); discriminate K|intros [r K]; discriminate K|reflexivity].
Qed.
Lemma exec2_cons {S} (e : env2 S) o c h o' outs : exec2 e o (c :: h) = (o', outs) ->
  exists o1 v l, step2 e o c = (o1, v) /\ exec2 e o1 h = (o', l) /\ outs = v :: l.
Proof.
  cbn [exec2]. destruct (step2 e o c) as [o1 v]. destruct (exec2 e o1 h) as [o2 l] eqn:E. intros H. injection H as <- <-.
  exists o1, v, l. repeat split. exact E.
Qed.
Lemma exec_fitted2 {S} (e : env2 S) h : forall o o' outs, exec2 e o h = (o', outs) ->
  (b_fitted o' = true <-> b_fitted o = true \/ exists c, In c h /\ (fits2 e c \/ is_read c)).
Proof.
  induction h as [|c h IH]; intros o o' outs H.
  - injection H as <- <-. split; [tauto|]. intros [K|(c & [] & _)]; exact K.
  - apply exec2_cons in H. destruct H as (o1 & v & l & E & X & ->). rewrite (IH _ _ _ X).
    pose proof (step_fitted e o c) as SF. rewrite E in SF. cbn [fst] in SF. rewrite SF. split.
    + intros [[K|K]|(c' & I & K)]; [now left|right; exists c; split; [now left|exact K]|right; exists c'; split; [now right|exact K]].
    + intros [K|(c' & [<-|I] & K)]; [tauto|tauto|right; exists c'; split; assumption].
Qed.
(** transform never raises NotFittedError on a fitted object *)
Lemma idx_not_nf {V} (l : list V) i : idx l i <> Err NotFitted.
Proof. unfold idx. destruct (nth_error l i); discriminate. Qed.
Lemma rmap_not_nf {A B} (f : A -> res B) l : (forall a, f a <> Err NotFitted) -> rmap f l <> Err NotFitted.
Proof.
  intros H. induction l as [|a l IH]; cbn [rmap]; [discriminate|]. unfold rbind. specialize (H a). destruct (f a); [|intros K; apply H; congruence].
  destruct (rmap f l); [discriminate|exact IH].
Qed.
Lemma transform2_not_nf {V} ax ay cx cy f k ms mm (mv : list V) z x y : transform2 ax ay cx cy f k ms mm mv z x y <> Err NotFitted.
Proof.
  assert (T : forall a i, table_or_const k a mv i <> Err NotFitted). { intros a i. unfold table_or_const. destruct (use_table k a); [apply idx_not_nf|]. destruct a; [apply idx_not_nf|discriminate]. }
  assert (A : forall bx by' i cur, cur <> Err NotFitted -> apply_bins ax ay i bx by' mv x y cur <> Err NotFitted).
  { induction bx as [|b bx IH]; intros [|c by'] i cur H; cbn [apply_bins]; try exact H. apply IH. destruct (_ && _)%bool; [apply idx_not_nf|exact H]. }
  unfold transform2. destruct (missing2 _); [apply T|]. destruct (_ && _)%bool; [apply T|]. destruct (clean2 _ _ _); [|discriminate]. apply A. discriminate.
Qed.
Lemma rfmap_nf {A B} (f : A -> B) r : rfmap f r = Err NotFitted <-> r = Err NotFitted.
Proof. destruct r; cbn; split; congruence. Qed.
Lemma transform_2d_nf {S} (e : env2 S) o pts bad check m : transform_2d e o pts bad check m = Err NotFitted <-> b_fitted o = false.
Proof.
  unfold transform_2d. destruct (b_fitted o); cbn [negb]; [|tauto]. split; [|discriminate]. intros H. exfalso. revert H.
  destruct m as [ms mm|ms mm|]; [| |discriminate]; (destruct (bad && check)%bool; [discriminate|]); (destruct (b_splits o) as [[bx by']|]; [|discriminate]);
    (destruct (b_counts o) as [c|]; [|discriminate]); cbv zeta; rewrite rfmap_nf; apply rmap_not_nf; intros p; apply transform2_not_nf.
Qed.
