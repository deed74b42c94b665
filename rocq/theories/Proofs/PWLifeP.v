From Coq Require Import List ZArith Reals Bool Arith String Ascii DecimalString Lia.
From Verif Require Import Model.Arr Model.Core Model.Cont Model.Piecewise Model.PWLife Spec.PWLifeSpec.
Import ListNotations.
Open Scope Z_scope.

(** the estimator parameter along a history *)
Definition est_ok (est : option Z) (o : pwobj) : Prop := po_est o = est \/ (est = None /\ po_est o = Some 0).
Lemma est_ok_same : forall est o, est_ok est o ->
  match po_est o with None => 0 | Some s => s end = match est with None => 0 | Some s => s end.
Proof. intros est o [-> | [-> ->]]; reflexivity. Qed.

(** The outcome of a fit: how far it gets. *)
Inductive stop :=
| NoStart (est : bool) (k : exn)       (* est: the estimator parameter was set *)
| InnerFails (k : exn)
| RegressFails (i : inner) (k : exn)
| AsideFails (i : inner) (c : list (list R)) (s : option string) (k : exn)
| TableFails (i : inner) (c : list (list R)) (s : option string) (a : aside) (k : exn)
| Done (i : inner) (c : list (list R)) (s : option string) (a : aside) (t : pwtable).
Definition newest (e : pwenv) (o : pwobj) : option Z :=
  match pe_kind e with PWBinary => Some (match po_est o with None => 0 | Some s => s end) | PWContinuous => po_est o end.
Definition after (e : pwenv) (o : pwobj) (s : stop) : pwobj * res unit :=
  match s with
  | NoStart b k => (if b then mkPO (newest e o) (po_optb o) (po_c o) (po_status o) (po_aside o) (po_table o) (po_fitted o) else o, Err k)
  | InnerFails k => (mkPO (newest e o) (Some None) (po_c o) (po_status o) (po_aside o) (po_table o) (po_fitted o), Err k)
  | RegressFails i k => (mkPO (newest e o) (Some (Some i)) (po_c o) (po_status o) (po_aside o) (po_table o) (po_fitted o), Err k)
  | AsideFails i c s k => (mkPO (newest e o) (Some (Some i)) (Some c) s (po_aside o) (po_table o) (po_fitted o), Err k)
  | TableFails i c s a k => (mkPO (newest e o) (Some (Some i)) (Some c) s (Some a) (po_table o) (po_fitted o), Err k)
  | Done i c s a t => (mkPO (newest e o) (Some (Some i)) (Some c) s (Some a) (Some t) true, Ok tt)
  end.

Definition post_stop (e : pwenv) (d : pdata) (i : inner) (c : list (list R)) (s : option string) (lb ub : option R) : stop :=
  match pw_aside e d i with
  | Err k => AsideFails i c s k
  | Ok (a, rows) =>
      let lb' := match pe_kind e with PWBinary => None | PWContinuous => lb end in
      let ub' := match pe_kind e with PWBinary => None | PWContinuous => ub end in
      match pe_metrics e (clean_pairs e d) (in_splits i) c a lb' ub' with
      | Err k => TableFails i c s a k
      | Ok m => match map fst (clean_pairs e d) with
                | [] => TableFails i c s a ValueError
                | xs => Done i c s a (mkPT (in_splits i) c rows lb' ub' (Lifecycle.zmin xs) (Lifecycle.zmax xs) m)
                end
      end
  end.
Definition binning_stop (e : pwenv) (d : pdata) (p : list R) (lb ub : option R) : stop :=
  match pe_inner e (clean_pairs e d) with
  | Err k => InnerFails k
  | Ok i => match pe_regress e (clean_pairs e d) p (in_splits i) lb ub with
            | Err k => RegressFails i k
            | Ok (st, c) => post_stop e d i c (retrieve_status st) lb ub
            end
  end.
Definition fit_stop (e : pwenv) (est : Z) (d : pdata) (lb ub : option R) (check : bool) : stop :=
  if negb (pe_valid e) then NoStart false ValueError else
  if pd_bad d && check then NoStart false ValueError else
  match pe_kind e with
  | PWBinary => match pe_predict e est (clean_pairs e d) with
                | Err k => NoStart true k
                | Ok p => binning_stop e d p lb ub
                end
  | PWContinuous => binning_stop e d (map (fun xy => IZR (snd xy)) (clean_pairs e d)) lb ub
  end.

Lemma post_after : forall e d o i c lb ub,
  pe_kind e = PWContinuous \/ (exists z, po_est o = Some z) ->
  po_optb o = Some (Some i) -> po_c o = Some c ->
  pw_post e d o i c lb ub = after e o (post_stop e d i c (po_status o) lb ub).
Proof.
  intros e d o i c lb ub Hk Ho Hc.
  assert (N : newest e o = po_est o).
  { unfold newest. destruct Hk as [-> | [z ->]]; [reflexivity|]. destruct (pe_kind e); reflexivity. }
  unfold pw_post, post_stop. destruct (pw_aside e d i) as [[a rows]|k].
  - cbv zeta. destruct (pe_metrics _ _ _ _ _ _ _); [|unfold after; cbn [po_est po_optb po_c po_status po_aside po_table po_fitted]; rewrite N, Ho, Hc; reflexivity].
    destruct (map fst _) eqn:E; unfold after; cbn [po_est po_optb po_c po_status po_aside po_table po_fitted]; rewrite N, Ho, Hc; reflexivity.
  - unfold after. rewrite N. destruct o; cbn in *; subst; reflexivity.
Qed.
Lemma after_again : forall e o o' s, po_est o' = newest e o -> newest e o' = newest e o -> po_table o' = po_table o ->
  po_fitted o' = po_fitted o -> po_aside o' = po_aside o ->
  (match s with AsideFails _ _ _ _ | TableFails _ _ _ _ _ | Done _ _ _ _ _ => True | _ => False end) ->
  after e o' s = after e o s.
Proof. intros e o o' s H1 H2 H3 H4 H5 Hs. destruct s; try contradiction; unfold after; now rewrite H2, ?H3, ?H4, ?H5. Qed.
Lemma newest_est : forall e o o', po_est o' = newest e o -> newest e o' = newest e o.
Proof. intros e o o' H. unfold newest in *. destruct (pe_kind e); rewrite H; reflexivity. Qed.
Lemma post_stop_late : forall e d i c s lb ub,
  match post_stop e d i c s lb ub with AsideFails _ _ _ _ | TableFails _ _ _ _ _ | Done _ _ _ _ _ => True | _ => False end.
Proof.
  intros. unfold post_stop. destruct (pw_aside e d i) as [[a r]|k]; [|exact I]. cbv zeta.
  destruct (pe_metrics _ _ _ _ _ _ _); [|exact I]. destruct (map fst _); exact I.
Qed.
Lemma binning_after : forall e d o o0 p lb ub, po_est o = newest e o0 -> po_optb o = po_optb o0 -> po_c o = po_c o0 ->
  po_status o = po_status o0 -> po_aside o = po_aside o0 -> po_table o = po_table o0 -> po_fitted o = po_fitted o0 ->
  pw_fit_binning e d o p lb ub = after e o0 (binning_stop e d p lb ub).
Proof.
  intros e d o o0 p lb ub H1 H2 H3 H4 H5 H6 H7. unfold pw_fit_binning, binning_stop.
  destruct (pe_inner e _) as [i|k]; [|unfold after; now rewrite H1, H3, H4, H5, H6, H7].
  cbv zeta. destruct (pe_regress _ _ _ _ _ _) as [[st c]|k].
  2:{ unfold after; now rewrite H1, H3, H4, H5, H6, H7. }
  rewrite post_after; [|destruct (pe_kind e) eqn:E; [right; cbn [po_est]; rewrite H1; unfold newest; rewrite E; eexists; reflexivity|now left]|reflexivity|reflexivity].
  cbn [po_status]. apply after_again; cbn [po_est po_table po_fitted po_aside]; auto.
  - apply newest_est. exact H1.
  - apply post_stop_late.
Qed.
Lemma fit_after : forall e d lb ub check o,
  pwl_fit e d lb ub check o = after e o (fit_stop e (match po_est o with None => 0 | Some s => s end) d lb ub check).
Proof.
  intros e d lb ub check o. unfold pwl_fit, fit_stop.
  destruct (negb (pe_valid e)); [reflexivity|]. destruct (pd_bad d && check)%bool; [reflexivity|].
  destruct (pe_kind e) eqn:E.
  - cbv zeta. destruct (pe_predict _ _ _) as [p|k].
    + apply binning_after; try reflexivity. cbn [po_est]. unfold newest. now rewrite E.
    + unfold after, newest. now rewrite E.
  - apply binning_after; try reflexivity. unfold newest. now rewrite E.
Qed.

(** ** consequences *)
Lemma newest_ok : forall e est o, est_ok est o -> est_ok est (mkPO (newest e o) (po_optb o) (po_c o) (po_status o) (po_aside o) (po_table o) (po_fitted o)).
Proof.
  intros e est o H. unfold est_ok in *. cbn [po_est]. unfold newest. destruct (pe_kind e); [|exact H].
  destruct H as [-> | [-> ->]]; [destruct est; auto|auto].
Qed.
Lemma fit_est_ok : forall e est o d lb ub ch, est_ok est o -> est_ok est (fst (pwl_fit e d lb ub ch o)).
Proof.
  intros e est o d lb ub ch H. rewrite fit_after. pose proof (newest_ok e est o H) as N. unfold est_ok in *. cbn [po_est] in N.
  destruct (fit_stop _ _ _ _ _ _); unfold after; cbn [fst po_est]; try exact N. destruct est0; [exact N|exact H].
Qed.
Lemma step_est_ok : forall e est o c, est_ok est o -> est_ok est (fst (pstep e o c)).
Proof.
  intros e est o c H. destruct c; cbn [pstep fst]; try exact H.
  - pose proof (fit_est_ok e est o d lb ub check H) as F. destruct (pwl_fit _ _ _ _ _ _). exact F.
  - destruct (ft_args (pe_kind e) lb ub check) as [[l u] ch]. pose proof (fit_est_ok e est o d l u ch H) as F.
    destruct (pwl_fit _ _ _ _ _ _). exact F.
Qed.
Lemma exec_est_ok : forall e est h o, est_ok est o -> est_ok est (fst (pexec e o h)).
Proof.
  intros e est h. induction h as [|c h IH]; intros o H; [exact H|]. cbn [pexec].
  pose proof (step_est_ok e est o c H) as S. destruct (pstep e o c) as [o' v]. cbn [fst] in S.
  specialize (IH o' S). destruct (pexec e o' h). exact IH.
Qed.
Lemma new_est_ok : forall est, est_ok est (pnew est).
Proof. intro est. left. reflexivity. Qed.

(** the fit of a call *)
Definition call_stop (e : pwenv) (est : Z) (c : pop) : option stop :=
  match c with
  | PFit d lb ub ch => Some (fit_stop e est d lb ub ch)
  | PFitTransform d _ _ _ lb ub ch => let '(l, u, c') := ft_args (pe_kind e) lb ub ch in Some (fit_stop e est d l u c')
  | _ => None
  end.
Lemma step_state : forall e est o c, est_ok est o ->
  fst (pstep e o c) = match call_stop e (match est with None => 0 | Some s => s end) c with
                      | None => o | Some s => fst (after e o s) end.
Proof.
  intros e est o c H. rewrite <- (est_ok_same est o H). destruct c; cbn [pstep call_stop fst]; try reflexivity.
  - rewrite fit_after. destruct (after _ _ _). reflexivity.
  - destruct (ft_args (pe_kind e) lb ub check) as [[l u] ch]. rewrite fit_after. destruct (after _ _ _). reflexivity.
Qed.
Definition is_done (s : stop) : bool := match s with Done _ _ _ _ _ => true | _ => false end.
Lemma after_fitted : forall e o s, po_fitted (fst (after e o s)) = is_done s || po_fitted o.
Proof. intros e o s. destruct s; cbn; try reflexivity. destruct est; reflexivity. Qed.
Definition call_done e est c := match call_stop e est c with Some s => is_done s | None => false end.
Lemma step_fitted : forall e est o c, est_ok est o ->
  po_fitted (fst (pstep e o c)) = call_done e (match est with None => 0 | Some s => s end) c || po_fitted o.
Proof.
  intros e est o c H. rewrite (step_state e est o c H). unfold call_done.
  destruct (call_stop _ _ _); [apply after_fitted|reflexivity].
Qed.
Lemma exec_fitted : forall e est h o, est_ok est o ->
  po_fitted (fst (pexec e o h)) = existsb (call_done e (match est with None => 0 | Some s => s end)) h || po_fitted o.
Proof.
  intros e est h. induction h as [|c h IH]; intros o H; [reflexivity|]. cbn [pexec existsb].
  pose proof (step_est_ok e est o c H) as S. pose proof (step_fitted e est o c H) as F.
  destruct (pstep e o c) as [o' v]. cbn [fst] in S, F. specialize (IH o' S). destruct (pexec e o' h). cbn [fst] in *.
  rewrite IH, F. destruct (call_done _ _ _), (existsb _ _), (po_fitted o); reflexivity.
Qed.
Lemma status_answer : forall e o, (exists s, p_answer e o PStatus = Ok (PVStatus s)) <-> po_fitted o = true.
Proof.
  intros e o. unfold p_answer. cbn [pstep snd]. destruct (po_fitted o); cbn [negb]; split.
  - reflexivity.
  - intros _. eexists. reflexivity.
  - intros [s [=]].
  - discriminate.
Qed.
Lemma fits_new_iff : forall e est c, fits_new e est c <-> call_done e (match est with None => 0 | Some s => s end) c = true.
Proof.
  intros e est c. unfold fits_new. rewrite status_answer, (step_fitted e est (pnew est) c (new_est_ok est)).
  cbn [pnew po_fitted]. now rewrite orb_false_r.
Qed.

(** linked: a fitted object has everything *)
Definition full (o : pwobj) : Prop :=
  po_fitted o = true -> po_optb o <> None /\ po_c o <> None /\ po_aside o <> None /\ po_table o <> None.
Lemma after_full : forall e o s, full o -> full (fst (after e o s)).
Proof.
  intros e o s H. unfold full in *. destruct s; cbn [after fst]; try destruct est; cbn [po_fitted po_optb po_c po_aside po_table];
    intro Hf; try (specialize (H Hf)); try exact H; try (destruct H as (A & B & C & D); repeat split; auto; discriminate).
  repeat split; discriminate.
Qed.
Lemma step_full : forall e o c, full o -> full (fst (pstep e o c)).
Proof.
  intros e o c H. rewrite (step_state e (po_est o) o c (or_introl eq_refl)). destruct (call_stop _ _ _); [now apply after_full|exact H].
Qed.
Lemma exec_full : forall e h o, full o -> full (fst (pexec e o h)).
Proof.
  intros e h. induction h as [|c h IH]; intros o H; [exact H|]. cbn [pexec].
  pose proof (step_full e o c H) as S. destruct (pstep e o c) as [o' v]. cbn [fst] in S.
  specialize (IH o' S). destruct (pexec e o' h). exact IH.
Qed.
Lemma new_full : forall est, full (pnew est).
Proof. intros est [=]. Qed.
