(** C71: a successful fit forgets the history. *)
From Coq Require Import List ZArith Bool QArith String Lia Permutation.
From Verif Require Import Model.Arr Model.Core Model.Process Model.ProcLife Spec.ProcLifeSpec Proofs.ProcessP Proofs.ProcLifeP.
Import ListNotations.
Open Scope Z_scope.

Section Run.
Context {C Y W V T : Type} (w : world C Y W V T) (argsort : list Z -> list nat).
Notation St := (pst V).

Lemma map2_fst {A B} (f : nat -> A -> B) (g : B -> A) (H : forall i a, g (f i a) = a) : forall l i, map g (map2 f (seq i (List.length l)) l) = l.
Proof. induction l as [|a l IH]; intros i; cbn; [reflexivity|]. now rewrite H, IH. Qed.
Lemma x_columns_names (X : xdata C) names : map fst (x_columns X names) = names.
Proof. unfold x_columns. now apply (map2_fst (fun i n => (n, x_column X i n)) fst). Qed.
Lemma disk_columns_names (f : dict C) names : map fst (map (fun n => (n, read_column f n)) names) = names.
Proof. rewrite map_map. cbn. apply map_id. Qed.

(** *** the fit leaves a good state *)
Lemma good_selection o s : NoDup (po_names o) -> good (po_names o) s -> good (po_names o) (fst (selection w argsort o s)).
Proof.
  intros ND G. unfold selection. destruct (s_target s) as [k|]; [|exact G]. destruct (g_stats _ _ G) as [j Hj].
  destruct (stats_loop_keys w k (s_vars s) (po_names o) ND (po_names o) 0%nat (s_stats s) j eq_refl Hj ltac:(lia)) as (j' & _ & B & _).
  destruct (stats_loop w k (s_vars s) (po_names o) (s_stats s)) as [d [q|e]]; cbn [fst] in B.
  - destruct (select argsort o (s_nvars s) d) as [sup r]. destruct G. constructor; cbn; auto. now exists j'.
  - destruct G. constructor; cbn; auto. now exists j'.
Qed.
Lemma good_finish o r : NoDup (po_names o) -> good (po_names o) (fst r) -> good (po_names o) (fst (finish w argsort o r)).
Proof.
  intros ND G. unfold finish. destruct (snd r); [|exact G]. pose proof (good_selection o (fst r) ND G) as H.
  destruct (selection w argsort o (fst r)) as [s [q|e]]; cbn [fst] in *; [|exact H]. destruct H. constructor; cbn; auto.
Qed.
Lemma good_target names k (s : St) : good names s -> good names (with_target k s).
Proof. intros []. constructor; cbn; auto. Qed.
Lemma good_shape names a b (s : St) : good names s -> good names (with_shape a b s).
Proof. intros []. constructor; cbn; auto. Qed.
Lemma good_updated names b (s : St) : good names s -> good names (with_updated b s).
Proof. intros []. constructor; cbn; auto. Qed.
Lemma good_keyed names (s : St) : good names s -> keyed names (s_dtypes s) /\ keyed names (s_vars s).
Proof. intros []. split; split; auto. Qed.
Lemma good_fit_vars o k y sw cols s : map fst cols = po_names o -> good (po_names o) s ->
  good (po_names o) (fst (fit_vars w o k y sw cols s)).
Proof.
  intros E G. unfold fit_vars. destruct (good_keyed _ _ G) as [A B].
  pose proof (fit_loop_keyed w (po_names o) o k y sw cols ltac:(now rewrite E) _ _ A B) as [A' B'].
  destruct (fit_loop w o k y sw cols (s_dtypes s) (s_vars s)) as [[d v] r]. now apply good_vars.
Qed.
Lemma fold_keyed {A B} names (f : name * A -> B) (l : dict A) : (forall n, In n (map fst l) -> In n names) -> forall d, keyed names d ->
  keyed names (fold_left (fun d kb => dset d (fst kb) (f kb)) l d).
Proof.
  induction l as [|x l IH]; intros Hn d H; cbn [fold_left]; [exact H|]. apply IH; [intros n Q; apply Hn; now right|].
  apply keyed_dset; [apply Hn; now left|exact H].
Qed.
Lemma dict_keys_in o (l : dict (bobj V)) :
  forallb (fun n => zmem n (po_names o)) (map fst l) && forallb (fun n => zmem n (map fst l)) (po_names o) = true ->
  (forall n, In n (map fst l) -> In n (po_names o)) /\ (forall n, In n (po_names o) -> In n (map fst l)).
Proof.
  intros H. apply andb_true_iff in H. rewrite !forallb_forall in H. destruct H as [A B].
  split; intros n Q; apply zmem_In; auto.
Qed.
Lemma good_step o s c : NoDup (po_names o) -> good (po_names o) s -> admissible (po_names o) c ->
  good (po_names o) (snd (fst (step w argsort (o, s) c))) /\ po_names (fst (fst (step w argsort (o, s) c))) = po_names o.
Proof.
  intros ND G Ad. destruct c; cbn [step].
  - assert (H : good (po_names o) (fst (p_fit w argsort o s X y sw))).
    { unfold p_fit. destruct (check_params o); [|exact G]. destruct (tkind_eqb _ _); [now apply good_target|].
      destruct (match sw with Some _ => _ | None => _ end); [now apply good_target|]. destruct (crit_check w o _); [|now apply good_target].
      destruct (_ =? _)%nat; [|apply good_shape; now apply good_target].
      apply good_finish; [exact ND|]. apply good_fit_vars; [apply x_columns_names|]. apply good_shape. now apply good_target. }
    destruct (p_fit w argsort o s X y sw). auto.
  - assert (H : good (po_names o) (fst (p_fit_disk w argsort o s path file target))).
    { unfold p_fit_disk. destruct (check_params o); [|exact G]. destruct (rbind _ _); [|exact G].
      destruct (tkind_eqb _ _); [now apply good_target|]. destruct (crit_check w o _); [|now apply good_target].
      destruct (forallb _ _); [|now apply good_target].
      apply good_finish; [exact ND|]. apply good_fit_vars; [apply disk_columns_names|]. apply good_shape. now apply good_target. }
    destruct (p_fit_disk w argsort o s path file target). auto.
  - assert (H : good (po_names o) (fst (p_fit_dict w argsort o s l))).
    { unfold p_fit_dict. destruct (check_params o); [|exact G]. destruct (forallb _ _ && forallb _ _) eqn:K; cbn [negb]; [|exact G].
      destruct (check_objects None l) as [[c|]|e]; try exact G. destruct (crit_check w o _); [|now apply good_target].
      apply good_finish; [exact ND|]. cbn [fst]. apply dict_keys_in in K. destruct K as [K1 _]. destruct (good_keyed _ _ G) as [A B].
      apply good_vars; [|  |apply good_shape; now apply good_target].
      - now apply (fold_keyed (po_names o) (fun kb => obj_cat (snd kb)) l K1).
      - now apply (fold_keyed (po_names o) (fun kb => snd kb) l K1). }
    destruct (p_fit_dict w argsort o s l). auto.
  - assert (H : good (po_names o) (fst (p_update o s n b))).
    { unfold p_update. destruct (negb (s_fitted s)); [exact G|]. destruct (zmem n (po_names o)) eqn:Z; cbn [negb]; [|exact G]. apply zmem_In in Z.
      destruct (negb (accepts _ _)); [exact G|]. destruct (dget (s_vars s) n); [|exact G].
      destruct (match v_name _ with Some _ => _ | None => _ end); [exact G|]. destruct (match v_name _ with Some _ => _ | None => _ end); [exact G|].
      cbn [fst]. apply good_updated. destruct (good_keyed _ _ G) as [A B]. apply good_vars; auto. now apply keyed_dset. }
    destruct (p_update o s n b). auto.
  - assert (H : good (po_names o) (fst (p_summary w argsort o s))).
    { unfold p_summary. destruct (negb (s_fitted s)); [exact G|]. destruct (s_updated s); [|exact G]. pose proof (good_selection o s ND G) as H.
      destruct (selection w argsort o s) as [s' [q|e]]; cbn [fst] in *; [now apply good_updated|exact H]. }
    destruct (p_summary w argsort o s). auto.
  - auto.
  - auto.
  - auto.
  - auto.
  - cbn in *. split; [exact G|exact Ad].
Qed.
Lemma good_run names h : NoDup names -> forall o s, po_names o = names -> good names s -> Forall (admissible names) h ->
  good names (snd (fst (run w argsort (o, s) h))) /\ po_names (fst (fst (run w argsort (o, s) h))) = names.
Proof.
  intros ND. induction h as [|c h IH]; intros o s E G A; cbn [run]; [auto|]. inversion A as [|? ? A1 A2]; subst.
  pose proof (good_step o s c ND G A1) as [G1 E1]. destruct (step w argsort (o, s) c) as [[o1 s1] a1]. cbn [fst snd] in *.
  specialize (IH o1 s1 E1 G1 A2). destruct (run w argsort (o1, s1) h) as [[o2 s2] l]. exact IH.
Qed.

(** *** the update flag *)
Lemma sel_updated o s : s_updated (fst (selection w argsort o s)) = s_updated s.
Proof.
  unfold selection. destruct (s_target s); [|reflexivity]. destruct (stats_loop w t (s_vars s) (po_names o) (s_stats s)) as [d [q|e]]; [|reflexivity].
  destruct (select argsort o (s_nvars s) d). reflexivity.
Qed.
Lemma finish_updated o r : s_updated (fst (finish w argsort o r)) = s_updated (fst r).
Proof.
  unfold finish. destruct (snd r); [|reflexivity]. pose proof (sel_updated o (fst r)) as H. destruct (selection w argsort o (fst r)) as [s [q|e]]; exact H.
Qed.
Lemma fit_vars_updated o k y sw cols s : s_updated (fst (fit_vars w o k y sw cols s)) = s_updated s.
Proof. unfold fit_vars. destruct (fit_loop w o k y sw cols (s_dtypes s) (s_vars s)) as [[d v] r]. reflexivity. Qed.
Lemma p_fit_updated o s X y sw : s_updated (fst (p_fit w argsort o s X y sw)) = s_updated s.
Proof.
  unfold p_fit. destruct (check_params o); [|reflexivity]. destruct (tkind_eqb _ _); [reflexivity|].
  destruct (match sw with Some _ => _ | None => _ end); [reflexivity|]. destruct (crit_check w o _); [|reflexivity].
  destruct (_ =? _)%nat; [|reflexivity]. now rewrite finish_updated, fit_vars_updated.
Qed.
Lemma p_fit_disk_updated o s p f t : s_updated (fst (p_fit_disk w argsort o s p f t)) = s_updated s.
Proof.
  unfold p_fit_disk. destruct (check_params o); [|reflexivity]. destruct (rbind _ _); [|reflexivity]. destruct (tkind_eqb _ _); [reflexivity|].
  destruct (crit_check w o _); [|reflexivity]. destruct (forallb _ _); [|reflexivity]. now rewrite finish_updated, fit_vars_updated.
Qed.
Lemma p_fit_dict_updated o s l : s_updated (fst (p_fit_dict w argsort o s l)) = s_updated s.
Proof.
  unfold p_fit_dict. destruct (check_params o); [|reflexivity]. destruct (negb _); [reflexivity|].
  destruct (check_objects None l) as [[c|]|e]; try reflexivity. destruct (crit_check w o _); [|reflexivity]. now rewrite finish_updated.
Qed.
(** pending after a step: the step is an accepted update, or it was pending and the step is no successful summary *)
Lemma step_updated o s c : s_updated (snd (fst (step w argsort (o, s) c))) = true ->
  (exists n b, c = KUpdate n b /\ snd (step w argsort (o, s) c) = ADone (Ok tt)) \/
  (s_updated s = true /\ forall r, ~ (c = KSummary /\ snd (step w argsort (o, s) c) = ASummary (Ok r))).
Proof.
  destruct c; cbn [step]; intros H.
  - right. pose proof (p_fit_updated o s X y sw) as E. destruct (p_fit w argsort o s X y sw). cbn in *. split; [congruence|intros ? [Q _]; discriminate].
  - right. pose proof (p_fit_disk_updated o s path file target) as E. destruct (p_fit_disk w argsort o s path file target). cbn in *. split; [congruence|intros ? [Q _]; discriminate].
  - right. pose proof (p_fit_dict_updated o s l) as E. destruct (p_fit_dict w argsort o s l). cbn in *. split; [congruence|intros ? [Q _]; discriminate].
  - assert (E : p_update o s n b = (fst (p_update o s n b), Ok tt) \/ s_updated (fst (p_update o s n b)) = s_updated s).
    { unfold p_update. destruct (negb (s_fitted s)); [now right|]. destruct (negb (zmem n _)); [now right|]. destruct (negb (accepts _ _)); [now right|].
      destruct (dget (s_vars s) n); [|now right]. destruct (match v_name _ with Some _ => _ | None => _ end); [now right|].
      destruct (match v_name _ with Some _ => _ | None => _ end); [now right|]. now left. }
    destruct (p_update o s n b) as [s' r]. cbn in *. destruct E as [E|E].
    + left. exists n, b. injection E as ->. auto.
    + right. split; [congruence|intros ? [Q _]; discriminate].
  - unfold p_summary in *. right. destruct (negb (s_fitted s)); cbn in *; [split; [exact H|intros ? [_ Q]; discriminate]|].
    destruct (s_updated s) eqn:U; cbn in *; [|congruence]. destruct (selection w argsort o s) as [s' [q|e]]; cbn in *; [discriminate|].
    split; [reflexivity|intros ? [_ Q]; discriminate].
  - right. split; [exact H|intros ? [Q _]; discriminate].
  - right. split; [exact H|intros ? [Q _]; discriminate].
  - right. split; [exact H|intros ? [Q _]; discriminate].
  - right. split; [exact H|intros ? [Q _]; discriminate].
  - right. split; [exact H|intros ? [Q _]; discriminate].
Qed.
Lemma run_app h1 : forall os h2, run w argsort os (h1 ++ h2) =
  (fst (run w argsort (fst (run w argsort os h1)) h2), snd (run w argsort os h1) ++ snd (run w argsort (fst (run w argsort os h1)) h2)).
Proof.
  induction h1 as [|c h1 IH]; intros os h2; cbn [run app fst snd]; [destruct (run w argsort os h2); reflexivity|].
  destruct (step w argsort os c) as [os1 a]. rewrite IH. destruct (run w argsort os1 h1) as [os2 l]. cbn [fst snd]. reflexivity.
Qed.
Lemma run_length h : forall os, List.length (snd (run w argsort os h)) = List.length h.
Proof.
  induction h as [|c h IH]; intros os; cbn [run]; [reflexivity|]. destruct (step w argsort os c) as [os1 a]. specialize (IH os1).
  destruct (run w argsort os1 h). cbn in *. lia.
Qed.
Lemma combine_app {A B} (a : list A) : forall (b : list B) a2 b2, List.length a = List.length b -> combine (a ++ a2) (b ++ b2) = combine a b ++ combine a2 b2.
Proof. induction a as [|x a IH]; intros [|y b] a2 b2 H; cbn in *; try lia; [reflexivity|]. f_equal. apply IH. lia. Qed.
Lemma settled_flag os h : s_updated (snd os) = false -> settled (combine h (snd (run w argsort os h))) ->
  s_updated (snd (fst (run w argsort os h))) = false.
Proof.
  intros U0. induction h as [|c h IH] using rev_ind; intros S; [exact U0|]. rewrite run_app in *. cbn [fst snd] in *.
  destruct (run w argsort os h) as [[o1 s1] l1] eqn:R. cbn [run fst snd] in *.
  pose proof (step_updated o1 s1 c) as F. destruct (step w argsort (o1, s1) c) as [[o2 s2] a]. cbn [fst snd] in *.
  pose proof (run_length h os) as L. rewrite R in L. cbn [snd] in L.
  rewrite combine_app in S by (symmetry; exact L). cbn [combine] in S.
  destruct (s_updated s2) eqn:U; [|reflexivity]. exfalso. destruct (F eq_refl) as [(n & b & -> & ->)|[U1 NS]].
  - destruct (S (combine h l1) n b [] eq_refl) as [r Q]. destruct Q.
  - assert (S1 : settled (combine h l1)).
    { intros p n b q E. destruct (S p n b (q ++ [(c, a)])) as [r Hr]; [rewrite E, <- app_assoc; reflexivity|].
      apply in_app_or in Hr. destruct Hr as [Hr|[Hr|[]]]; [exists r; exact Hr|]. injection Hr as -> ->. destruct (NS r). auto. }
    rewrite (IH S1) in U1. discriminate.
Qed.

(** *** fitting from two states *)
Lemma fit_loop_agree o k y sw cols : forall d e v u,
  NoDup (map fst d) -> NoDup (map fst e) -> NoDup (map fst v) -> NoDup (map fst u) ->
  (forall n, ~ In n (map fst cols) -> dget d n = dget e n) -> (forall n, ~ In n (map fst cols) -> dget v n = dget u n) ->
  let a := fit_loop w o k y sw cols d v in let b := fit_loop w o k y sw cols e u in
  snd a = snd b /\ (snd a = Ok tt -> deq (fst (fst a)) (fst (fst b)) /\ deq (snd (fst a)) (snd (fst b))).
Proof.
  induction cols as [|[n c] cols IH]; intros d e v u A B A2 B2 G G2; cbn [fit_loop].
  - cbn. split; [reflexivity|]. intros _. split; (split; [|split]); auto.
  - destruct (rbind c _) as [[t b]|x]; [|cbn; split; [reflexivity|discriminate]].
    apply IH; try (now apply dset_nodup); intros m H; rewrite !dget_dset; destruct (Z.eqb_spec n m) as [->|Q]; try reflexivity.
    + apply G. intros [X|X]; [cbn in X; congruence|auto].
    + apply G2. intros [X|X]; [cbn in X; congruence|auto].
Qed.
Lemma fold_agree {A B} (f : name * A -> B) (l : dict A) : forall (d e : dict B), NoDup (map fst d) -> NoDup (map fst e) ->
  (forall n, ~ In n (map fst l) -> dget d n = dget e n) ->
  deq (fold_left (fun d kb => dset d (fst kb) (f kb)) l d) (fold_left (fun d kb => dset d (fst kb) (f kb)) l e).
Proof.
  induction l as [|[k x] l IH]; intros d e A' B' G; cbn [fold_left]; [split; [|split]; auto|].
  apply IH; try (now apply dset_nodup). intros m H. rewrite !dget_dset. cbn [fst]. destruct (Z.eqb_spec k m) as [->|Q]; [reflexivity|].
  apply G. intros [X|X]; [cbn in X; congruence|auto].
Qed.
(** equal up to fitted, support and statistics *)
Record similar (names : list name) (s t : St) : Prop := mkSim {
  si_target : s_target s = s_target t; si_samples : s_samples s = s_samples t; si_nvars : s_nvars s = s_nvars t;
  si_dtypes : deq (s_dtypes s) (s_dtypes t); si_vars : deq (s_vars s) (s_vars t); si_updated : s_updated s = s_updated t;
  si_s : exists j, map fst (s_stats s) = firstn j names; si_t : exists j, map fst (s_stats t) = firstn j names }.
Lemma finish_similar o s t : NoDup (po_names o) -> similar (po_names o) s t ->
  snd (finish w argsort o (s, Ok tt)) = snd (finish w argsort o (t, Ok tt)) /\
  (snd (finish w argsort o (s, Ok tt)) = Ok tt -> same (fst (finish w argsort o (s, Ok tt))) (fst (finish w argsort o (t, Ok tt)))).
Proof.
  intros ND H. unfold finish. cbn [fst snd]. unfold selection. rewrite <- (si_target _ _ _ H), <- (si_nvars _ _ _ H).
  destruct (s_target s) as [k|] eqn:Et; [|cbn; split; [reflexivity|discriminate]].
  rewrite (stats_loop_same w k _ _ _ (si_vars _ _ _ H)). destruct (si_s _ _ _ H) as [j Hj], (si_t _ _ _ H) as [i Hi].
  pose proof (stats_loop_result w k (s_vars t) (po_names o) (s_stats s) j (s_stats t) i ND Hj Hi) as [R1 R2].
  destruct (stats_loop w k (s_vars t) (po_names o) (s_stats s)) as [d r], (stats_loop w k (s_vars t) (po_names o) (s_stats t)) as [e r'].
  cbn [fst snd] in R1, R2. subst r'. destruct r as [[]|x]; [|cbn; split; [reflexivity|discriminate]]. rewrite <- (R2 eq_refl).
  destruct (select argsort o (s_nvars s) d) as [sup q]. destruct q as [[]|x]; cbn [fst snd]; [|split; [reflexivity|discriminate]].
  split; [reflexivity|]. intros _. destruct H. constructor; cbn; auto.
Qed.
Lemma fit_vars_similar o k y sw cols s t : NoDup (po_names o) -> map fst cols = po_names o ->
  good (po_names o) s -> good (po_names o) t -> s_target s = s_target t -> s_samples s = s_samples t -> s_nvars s = s_nvars t -> s_updated s = s_updated t ->
  let a := finish w argsort o (fit_vars w o k y sw cols s) in let b := finish w argsort o (fit_vars w o k y sw cols t) in
  snd a = snd b /\ (snd a = Ok tt -> same (fst a) (fst b)).
Proof.
  intros ND E Gs Gt E1 E2 E3 E4. unfold fit_vars.
  assert (D : forall B (d e : dict B), keyed (po_names o) d -> keyed (po_names o) e -> forall n, ~ In n (map fst cols) -> dget d n = dget e n).
  { intros B d e [_ K1] [_ K2] n H. rewrite E in H. transitivity (@None B); [apply dget_none; auto|symmetry; apply dget_none; auto]. }
  destruct (good_keyed _ _ Gs) as [A1 A2], (good_keyed _ _ Gt) as [B1 B2].
  pose proof (fit_loop_agree o k y sw cols _ _ _ _ (proj1 A1) (proj1 B1) (proj1 A2) (proj1 B2) (D _ _ _ A1 B1) (D _ _ _ A2 B2)) as F.
  destruct (fit_loop w o k y sw cols (s_dtypes s) (s_vars s)) as [[d v] r], (fit_loop w o k y sw cols (s_dtypes t) (s_vars t)) as [[e u] r'].
  cbn [fst snd] in F. destruct F as [<- F]. destruct r as [[]|x]; [|cbn; split; [reflexivity|discriminate]]. destruct (F eq_refl) as [F1 F2].
  apply finish_similar; [exact ND|]. constructor; cbn; auto using (g_stats _ _ Gs), (g_stats _ _ Gt).
Qed.
Lemma similar_start names k a b (s : St) : good names s -> good names (with_shape a b (with_target k s)).
Proof. intros. now apply good_shape, good_target. Qed.
Lemma fit_fresh o s c : NoDup (po_names o) -> good (po_names o) s -> is_fit c -> admissible (po_names o) c ->
  let a := step w argsort (o, s) c in let b := step w argsort (o, p_new) c in
  snd a = snd b /\
  (snd a = ADone (Ok tt) -> s_updated s = false -> fst (fst a) = o /\ fst (fst b) = o /\ same (snd (fst a)) (snd (fst b))).
Proof.
  intros ND G F Ad. pose proof (good_new (V := V) (po_names o)) as G0.
  destruct c; try destruct F; cbn [step].
  - assert (H : snd (p_fit w argsort o s X y sw) = snd (p_fit w argsort o p_new X y sw) /\
      (snd (p_fit w argsort o s X y sw) = Ok tt -> s_updated s = false -> same (fst (p_fit w argsort o s X y sw)) (fst (p_fit w argsort o p_new X y sw)))).
    { unfold p_fit. destruct (check_params o); [|cbn; split; [reflexivity|discriminate]]. destruct (tkind_eqb _ _); [cbn; split; [reflexivity|discriminate]|].
      destruct (match sw with Some _ => _ | None => _ end); [cbn; split; [reflexivity|discriminate]|]. destruct (crit_check w o _); [|cbn; split; [reflexivity|discriminate]].
      destruct (_ =? _)%nat; [|cbn; split; [reflexivity|discriminate]].
      destruct (s_updated s) eqn:U.
      - split; [|intros _ Q; discriminate].
        set (k := w_target w y). set (sh := with_shape (x_rows X) (x_width X)).
        assert (RU : forall t : St, snd (finish w argsort o (fit_vars w o k y sw (x_columns X (po_names o)) (with_updated false t))) = snd (finish w argsort o (fit_vars w o k y sw (x_columns X (po_names o)) t))).
        { intros t. unfold fit_vars. cbn. destruct (fit_loop w o k y sw (x_columns X (po_names o)) (s_dtypes t) (s_vars t)) as [[d v] [q|e]]; [|reflexivity].
          unfold finish, selection. cbn. destruct (s_target t); [|reflexivity]. destruct (stats_loop _ _ _ _ _) as [d' [q'|e']]; [|reflexivity].
          destruct (select _ _ _ _) as [sup [q2|e2]]; reflexivity. }
        rewrite <- RU.
        refine (proj1 (fit_vars_similar o k y sw (x_columns X (po_names o)) _ _ ND (x_columns_names X (po_names o)) _ _ _ _ _ _)); try reflexivity.
        + apply good_updated. now apply similar_start. + now apply similar_start.
      - pose proof (fit_vars_similar o (w_target w y) y sw (x_columns X (po_names o)) (with_shape (x_rows X) (x_width X) (with_target (w_target w y) s))
          (with_shape (x_rows X) (x_width X) (with_target (w_target w y) p_new)) ND (x_columns_names X (po_names o)) (similar_start _ _ _ _ _ G) (similar_start _ _ _ _ _ G0) eq_refl eq_refl eq_refl U) as [A B].
        split; [exact A|]. intros Q _. exact (B Q). }
    destruct (p_fit w argsort o s X y sw), (p_fit w argsort o p_new X y sw). cbn in *. destruct H as [-> H]. split; [reflexivity|]. intros Q U. injection Q as ->. auto.
  - assert (H : snd (p_fit_disk w argsort o s path file target) = snd (p_fit_disk w argsort o p_new path file target) /\
      (snd (p_fit_disk w argsort o s path file target) = Ok tt -> s_updated s = false -> same (fst (p_fit_disk w argsort o s path file target)) (fst (p_fit_disk w argsort o p_new path file target)))).
    { unfold p_fit_disk. destruct (check_params o); [|cbn; split; [reflexivity|discriminate]]. destruct (rbind _ _) as [c|e]; [|cbn; split; [reflexivity|discriminate]].
      set (y := w_as_target w c). set (k := w_target w y).
      destruct (tkind_eqb _ _); [cbn; split; [reflexivity|discriminate]|]. destruct (crit_check w o _); [|cbn; split; [reflexivity|discriminate]].
      destruct (forallb _ _); [|cbn; split; [reflexivity|discriminate]]. set (cols := map (fun n => (n, read_column file n)) (po_names o)).
      assert (RU : forall t : St, snd (finish w argsort o (fit_vars w o k y None cols (with_updated false t))) = snd (finish w argsort o (fit_vars w o k y None cols t))).
      { intros t. unfold fit_vars. cbn. destruct (fit_loop w o k y None cols (s_dtypes t) (s_vars t)) as [[d v] [q|e]]; [|reflexivity].
        unfold finish, selection. cbn. destruct (s_target t); [|reflexivity]. destruct (stats_loop _ _ _ _ _) as [d' [q'|e']]; [|reflexivity].
        destruct (select _ _ _ _) as [sup [q2|e2]]; reflexivity. }
      destruct (s_updated s) eqn:U.
      - split; [|intros _ Q; discriminate]. rewrite <- RU.
        refine (proj1 (fit_vars_similar o k y None cols _ _ ND (disk_columns_names file (po_names o)) _ _ _ _ _ _)); try reflexivity.
        + apply good_updated. now apply similar_start. + now apply similar_start.
      - pose proof (fit_vars_similar o k y None cols (with_shape (w_len w y) (List.length (po_names o)) (with_target k s))
          (with_shape (w_len w y) (List.length (po_names o)) (with_target k p_new)) ND (disk_columns_names file (po_names o)) (similar_start _ _ _ _ _ G) (similar_start _ _ _ _ _ G0) eq_refl eq_refl eq_refl U) as [A B].
        split; [exact A|]. intros Q _. exact (B Q). }
    destruct (p_fit_disk w argsort o s path file target), (p_fit_disk w argsort o p_new path file target). cbn in *. destruct H as [-> H]. split; [reflexivity|]. intros Q U. injection Q as ->. auto.
  - assert (H : snd (p_fit_dict w argsort o s l) = snd (p_fit_dict w argsort o p_new l) /\
      (snd (p_fit_dict w argsort o s l) = Ok tt -> s_updated s = false -> same (fst (p_fit_dict w argsort o s l)) (fst (p_fit_dict w argsort o p_new l)))).
    { unfold p_fit_dict. destruct (check_params o); [|cbn; split; [reflexivity|discriminate]].
      destruct (forallb _ _ && forallb _ _) eqn:K; cbn [negb]; [|cbn; split; [reflexivity|discriminate]]. apply dict_keys_in in K. destruct K as [K1 K2].
      destruct (check_objects None l) as [[c|]|e]; try (cbn; split; [reflexivity|discriminate]). destruct (crit_check w o _); [|cbn; split; [reflexivity|discriminate]].
      set (k := kind_of c).
      assert (D : forall B (d : dict B), keyed (po_names o) d -> forall n, ~ In n (map fst l) -> dget d n = None).
      { intros B d [_ Kd] n H. apply dget_none. intros X. apply H, K2, Kd, X. }
      destruct (good_keyed _ _ G) as [A1 A2].
      assert (SIM : s_updated s = false -> similar (po_names o)
         (with_vars (fold_left (fun d kb => dset d (fst kb) (obj_cat (snd kb))) l (s_dtypes s)) (fold_left (fun d kb => dset d (fst kb) (snd kb)) l (s_vars s)) (with_shape 0 (List.length (po_names o)) (with_target k s)))
         (with_vars (fold_left (fun d kb => dset d (fst kb) (obj_cat (snd kb))) l []) (fold_left (fun d kb => dset d (fst kb) (snd kb)) l []) (with_shape 0 (List.length (po_names o)) (with_target k p_new)))).
      { intros U. constructor; cbn [s_target s_samples s_nvars s_dtypes s_vars s_updated s_stats with_vars with_shape with_target p_new]; auto using (g_stats _ _ G).
        - apply (fold_agree (fun kb => obj_cat (snd kb)) l); [exact (proj1 A1)|constructor|]. intros n Hn. cbn. now apply (D _ _ A1).
        - apply (fold_agree (fun kb => snd kb) l); [exact (proj1 A2)|constructor|]. intros n Hn. cbn. now apply (D _ _ A2).
        - now exists 0%nat. }
      destruct (s_updated s) eqn:U.
      - split; [|intros _ Q; discriminate].
        assert (RU : forall t : St, snd (finish w argsort o (with_updated false t, Ok tt)) = snd (finish w argsort o (t, Ok tt))).
        { intros t. unfold finish, selection. cbn. destruct (s_target t); [|reflexivity]. destruct (stats_loop _ _ _ _ _) as [d' [q'|e']]; [|reflexivity].
          destruct (select _ _ _ _) as [sup [q2|e2]]; reflexivity. }
        rewrite <- RU. refine (proj1 (finish_similar o _ _ ND _)).
        constructor; cbn [s_target s_samples s_nvars s_dtypes s_vars s_updated s_stats with_vars with_shape with_target with_updated p_new]; auto using (g_stats _ _ G).
        + apply (fold_agree (fun kb => obj_cat (snd kb)) l); [exact (proj1 A1)|constructor|]. intros n Hn. cbn. now apply (D _ _ A1).
        + apply (fold_agree (fun kb => snd kb) l); [exact (proj1 A2)|constructor|]. intros n Hn. cbn. now apply (D _ _ A2).
        + now exists 0%nat.
      - pose proof (finish_similar o _ _ ND (SIM eq_refl)) as [A B]. split; [exact A|]. intros Q _. exact (B Q). }
    destruct (p_fit_dict w argsort o s l), (p_fit_dict w argsort o p_new l). cbn in *. destruct H as [-> H]. split; [reflexivity|]. intros Q U. injection Q as ->. auto.
Qed.
End Run.
