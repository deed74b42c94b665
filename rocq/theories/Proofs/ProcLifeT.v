(** C71: parameter ranges, summary, information, what fit_from_dict requires. *)
From Coq Require Import List ZArith Bool QArith String Ascii Lia Sorted Permutation.
From Verif Require Import Model.Arr Model.Core Model.Process Model.ProcLife Spec.ProcessSpec Spec.ProcLifeSpec Proofs.ProcessP
  Proofs.ProcLifeP Proofs.ProcLifeQ Proofs.ProcLifeR Proofs.ProcLifeS.
Import ListNotations.
Open Scope Z_scope.

Lemma qlt_lt a b : qlt a b = true <-> (a < b)%Q.
Proof.
  unfold qlt. rewrite negb_true_iff, <- not_true_iff_false, Qle_bool_iff. split; [apply Qnot_le_lt|apply Qlt_not_le].
Qed.
Lemma opt_all_iff {A} (p : A -> bool) (P : A -> Prop) x : (forall a, p a = true <-> P a) -> (opt_all p x = true <-> if_set P x).
Proof.
  intros E. unfold opt_all, if_set. destruct x as [a|]; [|split; [intros _ ? Q; discriminate|auto]]. rewrite E. split; [intros H b Q; now injection Q as <-|auto].
Qed.
Lemma both_iff {A} (p : A -> A -> bool) (P : A -> A -> Prop) x y : (forall a b, p a b = true <-> P a b) -> (both p x y = true <-> if_both P x y).
Proof.
  intros E. unfold both, if_both. destruct x as [a|]; [|split; [intros _ ? ? Q; discriminate|auto]]. destruct y as [b|]; [|split; [intros _ ? ? _ Q; discriminate|auto]].
  rewrite E. split; [intros H c d Q R; injection Q as <-; now injection R as <-|auto].
Qed.
Lemma params_range o : params_ok o = true <-> in_range o.
Proof.
  unfold params_ok, in_range. rewrite !andb_true_iff, qlt_lt, Qle_bool_iff, Z.ltb_lt.
  rewrite (opt_all_iff (Z.ltb 0) (fun v => 0 < v) (po_min_bins o) (Z.ltb_lt 0)), (opt_all_iff (Z.ltb 0) (fun v => 0 < v) (po_max_bins o) (Z.ltb_lt 0)).
  rewrite (both_iff Z.leb Z.le _ _ Z.leb_le), (both_iff Qle_bool Qle _ _ Qle_bool_iff).
  rewrite (opt_all_iff _ (fun q => 0 < q <= 1 # 2)%Q (po_min_size o)) by (intros q; now rewrite andb_true_iff, qlt_lt, Qle_bool_iff).
  rewrite (opt_all_iff _ (fun q => 0 < q <= 1)%Q (po_max_size o)) by (intros q; now rewrite andb_true_iff, qlt_lt, Qle_bool_iff).
  rewrite (opt_all_iff _ (fun q => 0 < q <= 1)%Q (po_pvalue o)) by (intros q; now rewrite andb_true_iff, qlt_lt, Qle_bool_iff).
  rewrite (opt_all_iff _ (fun d => 0 <= d <= 8) (po_digits o)) by (intros d; rewrite andb_true_iff, !Z.leb_le; lia).
  tauto.
Qed.
Lemma fit_params_in {C Y W V T} (w : world C Y W V T) argsort o s c : is_fit c -> snd (step w argsort (o, s) c) = ADone (Ok tt) -> params_ok o = true.
Proof.
  intros F H. destruct (params_ok o) eqn:P; [reflexivity|]. exfalso. destruct c; try destruct F; cbn [step] in H.
  all: unfold p_fit, p_fit_disk, p_fit_dict, check_params in H; rewrite P in H; discriminate.
Qed.

Section Sum.
Context {C Y W V T : Type} (w : world C Y W V T) (argsort : list Z -> list nat).
Notation St := (pst V).
Lemma map2_fst_snd (d : dict (tkind * var_stats)) : forall sup : list bool, List.length sup = List.length d ->
  map snd (map2 (fun kv b => (fst kv, snd kv, b)) d sup) = sup /\ map (fun r => fst r) (map2 (fun kv b => (fst kv, snd kv, b)) d sup) = d.
Proof using. clear.
  induction d as [|[a b] d IH]; intros [|c sup] H; try discriminate; cbn [map2 map]; [auto|].
  destruct (IH sup ltac:(cbn in H; lia)) as [-> Q]. split; [reflexivity|]. cbn. f_equal. exact Q.
Qed.
Lemma summary_reports o (s t : St) k d j rows : NoDup (po_names o) -> map fst (s_stats s) = firstn j (po_names o) ->
  stats_loop w k (s_vars s) (po_names o) (s_stats s) = (d, Ok tt) ->
  s_stats t = d -> s_vars t = s_vars s -> s_target t = Some k -> s_fitted t = true -> summary_rows t = Ok rows -> reports w o t k rows.
Proof using w. clear argsort.
  intros ND K L ED EV ET EF R. unfold summary_rows in R. rewrite ET in R. destruct (s_support t) as [sup|] eqn:ES; [|discriminate].
  rewrite ED in R. destruct (Nat.eqb_spec (List.length sup) (List.length d)) as [Q|Q]; cbn [negb] in R; [|discriminate].
  destruct (tkind_eqb k TUnsupported) eqn:U; [discriminate|]. destruct (forallb _ _); [|discriminate]. injection R as <-.
  destruct (map2_fst_snd d sup Q) as [M1 M2].
  assert (KD : map fst d = po_names o).
  { pose proof (stats_loop_full w k (s_vars s) (po_names o) (s_stats s) j ND K) as H. rewrite L in H. exact (H eq_refl). }
  split.
  - pose proof (stats_loop_get w k (s_vars s) (po_names o) (s_stats s)) as G. rewrite L in G. specialize (G eq_refl ND). cbn [fst] in G.
    assert (H : Forall2 (fun n kv => n = fst kv /\ dget d n = Some (snd kv)) (po_names o) d).
    { rewrite <- KD in ND. rewrite <- KD at 1. clear - ND.
      assert (forall l, (forall x, In x l -> In x d) -> Forall2 (fun n kv => n = fst kv /\ dget d n = Some (snd kv)) (map fst l) l) as H.
      { induction l as [|[a b] l IH]; intros I; cbn [map]; constructor.
        - split; [reflexivity|]. apply dget_in; [exact ND|]. apply I. now left.
        - apply IH. intros x Hx. apply I. now right. }
      apply H. auto. }
    assert (H2 : Forall2 (fun n row => n = fst (fst row) /\ dget d n = Some (snd (fst row))) (po_names o) (map2 (fun kv b => (fst kv, snd kv, b)) d sup)).
    { assert (Q2 : forall (f : dict (tkind * var_stats)) rows l, map (fun r => fst r) rows = f -> Forall2 (fun n kv => n = fst kv /\ dget d n = Some (snd kv)) l f ->
        Forall2 (fun n (row : name * (tkind * var_stats) * bool) => n = fst (fst row) /\ dget d n = Some (snd (fst row))) l rows).
      { clear. intros f rows l <-. revert l. induction rows as [|r rows IH]; intros l H; inversion H as [|? ? ? ? [H1 H2] H3]; subst; constructor; auto. }
      eapply Q2; [exact M2|exact H]. }
    assert (Names : forall n, In n (po_names o) -> In n (po_names o)) by auto. revert H2 Names. generalize (po_names o) at 1 2 4.
    clear M1 M2. intros l H2. induction H2 as [|n row l rows [A B] H2 IH]; intros I; [constructor|constructor; [|apply IH; intros m Hm; apply I; now right]].
    split; [now symmetry|]. destruct (G n (I n (or_introl eq_refl))) as (st & G1 & G2). rewrite B in G2. injection G2 as G2.
    unfold obj_stats in G1. destruct (dget (s_vars s) n) as [b|] eqn:D; [|discriminate]. destruct (b_res b) as [v|] eqn:E; [|discriminate].
    destruct (bclass_eqb _ _); [discriminate|]. rewrite U in G1. exists b, v, st. unfold p_get. rewrite EF, EV, D. cbn [negb].
    pose proof (proj2 (zmem_In n (po_names o)) (I n (or_introl eq_refl))) as Z. rewrite Z. auto.
  - unfold p_support. rewrite EF, ES. cbn. now rewrite M1.
Qed.
Lemma fit_summary o s X y sw s' : NoDup (po_names o) -> good (po_names o) s -> po_names o <> [] -> s_updated s = false ->
  p_fit w argsort o s X y sw = (s', Ok tt) -> exists rows, p_summary w argsort o s' = (s', Ok rows) /\ reports w o s' (w_target w y) rows.
Proof.
  intros ND G NE U H. destruct (fit_selects w argsort o s X y sw s' (mkB CBin (mkV None false 0 0 None None None None None true [] None 0) None) ND G H) as (sup & S1 & S2 & S3 & _).
  destruct (fit_ok _ _ _ _ _ _ _ _ H) as (_ & NU & _ & _ & _ & d & v & L & F). destruct (finish_ok _ _ _ _ _ F) as (k & d' & sup' & Ek & Es & Sel & E).
  cbn in Ek. injection Ek as <-. cbn in Es. assert (SR : exists rows, summary_rows s' = Ok rows).
  { unfold summary_rows. rewrite S1. rewrite E in S3 |- *. cbn in S3 |- *. rewrite S2, <- S3, map_length, Nat.eqb_refl. cbn [negb].
    destruct (tkind_eqb (w_target w y) TUnsupported) eqn:Q; [destruct (w_target w y); (discriminate || congruence)|].
    pose proof (stats_loop_get w (w_target w y) v (po_names o) (s_stats s)) as SG. rewrite Es in SG. specialize (SG eq_refl ND). cbn [fst] in SG.
    destruct (po_names o) as [|n0 nr] eqn:EN; [congruence|]. destruct (SG n0 (or_introl eq_refl)) as (st & _ & D).
    assert (ND' : NoDup (map fst d')) by (rewrite S3; exact ND). apply (dget_in d' n0 _ ND') in D.
    assert (FA : forallb (fun m => existsb (fun kv => has_metric (fst (snd kv)) m) d') (metrics_of (w_target w y)) = true).
    { apply forallb_forall. intros m Hm. apply existsb_exists. exists (n0, (w_target w y, st)). split; [exact D|]. cbn [fst snd]. unfold has_metric.
      apply existsb_exists. exists m. split; [exact Hm|apply Nat.eqb_refl]. }
    rewrite FA. eauto. }
  destruct SR as [rows SR]. exists rows. destruct (g_stats _ _ G) as [j Hj].
  assert (Fs : s_fitted s' = true) by (rewrite E; reflexivity). assert (Us : s_updated s' = false) by (rewrite E; cbn; exact U).
  split; [unfold p_summary; rewrite Fs, Us; cbn [negb]; now rewrite SR|].
  eapply (summary_reports o (with_vars d v s) s' (w_target w y) d' j rows ND); cbn; try rewrite E; try reflexivity; try exact Hj; try exact Es.
  now rewrite <- E.
Qed.
Lemma updated_summary o s s' rows : NoDup (po_names o) -> good (po_names o) s -> s_updated s = true -> p_summary w argsort o s = (s', Ok rows) ->
  exists k, s_target s = Some k /\ reports w o s' k rows /\ (forall n, p_get o s' n = p_get o s n).
Proof.
  intros ND G U H. unfold p_summary in H. destruct (s_fitted s) eqn:F; cbn [negb] in H; [|discriminate]. rewrite U in H.
  destruct (g_stats _ _ G) as [j Hj]. unfold selection in H. destruct (s_target s) as [k|] eqn:ET; [|discriminate].
  destruct (stats_loop w k (s_vars s) (po_names o) (s_stats s)) as [d [[]|e]] eqn:L; [|discriminate].
  destruct (select argsort o (s_nvars s) d) as [sup [[]|e]]; [|discriminate]. injection H as E R. exists k. split; [reflexivity|]. split.
  - subst s'. eapply (summary_reports o s _ k d j rows ND Hj L); try exact R; cbn; auto.
  - intros n. unfold p_get. rewrite <- E. cbn. rewrite F. reflexivity.
Qed.

(** *** information *)
Lemma filter_length_perm {A} (p : A -> bool) l l' : Permutation l l' -> List.length (filter p l) = List.length (filter p l').
Proof using. clear. induction 1; cbn; repeat match goal with |- context [if ?b then _ else _] => destruct b end; cbn; congruence. Qed.
Lemma dict_count (d : dict bool) names (f : name -> bool) : NoDup (map fst d) -> NoDup names -> (forall n, In n (map fst d) -> In n names) ->
  (forall n, In n names -> dget d n = Some (f n)) -> List.length (filter (fun kv => negb (snd kv)) d) = List.length (filter (fun n => negb (f n)) names).
Proof using. clear.
  intros N1 N2 K G. assert (P : Permutation (map fst d) names).
  { apply NoDup_Permutation; auto. intros n. split; [apply K|]. intros I. specialize (G n I). apply dget_in in G; [|exact N1]. apply in_map_iff. exists (n, f n). auto. }
  rewrite <- (filter_length_perm (fun n => negb (f n)) _ _ P). assert (H : forall kv, In kv d -> snd kv = f (fst kv)).
  { intros [n b] I. cbn. assert (In n (map fst d)) as Q by (apply in_map_iff; exists (n, b); auto). specialize (G n (K n Q)). apply dget_in in G; [|exact N1].
    pose proof (proj2 (dget_in d n b N1) I) as R. pose proof (proj2 (dget_in d n (f n) N1) G) as R2. congruence. }
  clear N1 N2 K G P. induction d as [|kv d IH]; cbn [map filter]; [reflexivity|]. rewrite <- (H kv (or_introl eq_refl)).
  destruct (snd kv); cbn [negb List.length]; rewrite IH; auto; intros x Hx; apply H; now right.
Qed.
Lemma fit_dtypes o s X y sw s' : NoDup (po_names o) -> p_fit w argsort o s X y sw = (s', Ok tt) ->
  forall i n, nth_error (po_names o) i = Some n -> exists x, x_column X i n = Ok x /\ dget (s_dtypes s') n = Some (w_object w x || zmem n (po_cat o)).
Proof.
  intros ND H i n Hn. destruct (fit_ok _ _ _ _ _ _ _ _ H) as (_ & _ & _ & _ & _ & d & v & L & F).
  destruct (finish_ok _ _ _ _ _ F) as (k & d' & sup & _ & _ & _ & ->). cbn.
  pose proof (fit_loop_get w o (w_target w y) y sw (x_columns X (po_names o)) ltac:(now rewrite x_columns_names) (s_dtypes s) (s_vars s)) as G.
  rewrite L in G. destruct (G eq_refl n _ (x_columns_in argsort X _ i n Hn)) as (x & t & b & Ex & Ef & Et & Eb). cbn [fst snd] in Et, Eb.
  exists x. split; [exact Ex|]. rewrite Et. f_equal. unfold fit_variable in Ef. destruct (_ && _); [discriminate|].
  apply rbind_ok in Ef. destruct Ef as (vo & _ & Ef). apply rbind_ok in Ef. destruct Ef as (r & _ & E3). now injection E3 as <- <-.
Qed.

(** *** fit_from_dict *)
Lemma check_objects_inv : forall (l : dict (bobj V)) seen r, check_objects seen l = Ok r ->
  (forall c, seen = Some c -> r = Some c) /\
  forall n b, In (n, b) l -> r = Some (b_class b) /\ b_class b <> CPW /\ b_class b <> CContPW /\ b_res b <> None /\ (v_name (b_opts b) = Some n \/ v_name (b_opts b) = None).
Proof using. clear.
  induction l as [|[n b] l IH]; intros seen r H; cbn [check_objects] in H.
  - injection H as <-. split; [auto|intros ? ? []].
  - assert (A : b_class b <> CPW /\ b_class b <> CContPW /\ exists rb, b_res b = Some rb /\ (forall c, seen = Some c -> c = b_class b) /\
       (v_name (b_opts b) = Some n \/ v_name (b_opts b) = None) /\ check_objects (Some (b_class b)) l = Ok r).
    { destruct (b_class b) eqn:Eb; try discriminate.
      all: destruct (match seen with Some _ => _ | None => _ end) eqn:S; [discriminate|]; destruct (b_res b) as [rb|]; [|discriminate];
           destruct (match v_name (b_opts b) with Some _ => _ | None => _ end) eqn:N; [discriminate|];
           (split; [discriminate|]); (split; [discriminate|]); exists rb; (split; [reflexivity|]); (split; [|split; [|exact H]]).
      all: try (intros c ->; destruct c; try reflexivity; discriminate).
      all: destruct (v_name (b_opts b)) as [m|]; [left|now right]; apply negb_false_iff, Z.eqb_eq in N; now subst. }
    destruct A as (A1 & A2 & rb & A3 & A4 & A5 & A6). destruct (IH _ _ A6) as [B1 B2]. specialize (B1 _ eq_refl). split.
    + intros c E. rewrite B1. f_equal. symmetry. now apply A4.
    + intros m b' [Q|Q]; [|now apply B2]. injection Q as <- <-. split; [exact B1|]. rewrite A3. split; [exact A1|]. split; [exact A2|]. split; [discriminate|exact A5].
Qed.
Lemma dict_requires o s l s' : NoDup (map fst l) -> p_fit_dict w argsort o s l = (s', Ok tt) ->
  (forall n, In n (map fst l) <-> In n (po_names o)) /\
  (exists k, s_target s' = Some k /\
     forall n b, In (n, b) l -> class_of_target k (b_class b) /\ b_res b <> None /\ (v_name (b_opts b) = Some n \/ v_name (b_opts b) = None) /\ p_get o s' n = Ok b).
Proof.
  intros N H. unfold p_fit_dict, check_params in H. destruct (params_ok o); [|discriminate].
  destruct (forallb (fun n => zmem n (po_names o)) (map fst l)) eqn:F1; cbn [andb negb] in H; [|discriminate]. destruct (forallb (fun n => zmem n (map fst l)) (po_names o)) eqn:F2; cbn [negb] in H; [|discriminate].
  rewrite forallb_forall in F1, F2. assert (K : forall n, In n (map fst l) <-> In n (po_names o)).
  { intros n. split; intros Q; [apply F1 in Q|apply F2 in Q]; now apply zmem_In in Q. }
  split; [exact K|]. destruct (check_objects None l) as [[c|]|e] eqn:Co; try discriminate. destruct (crit_check w o _); [|discriminate].
  destruct (finish_ok _ _ _ _ _ H) as (k & d & sup & Ek & _ & _ & ->). cbn in Ek. injection Ek as <-.
  destruct (check_objects_inv l None (Some c) Co) as [_ CI].
  exists (kind_of c). split; [reflexivity|]. intros n b I. destruct (CI n b I) as (E & P1 & P2 & R & Nm). injection E as ->.
  split; [destruct (b_class b); cbn; congruence|]. split; [exact R|]. split; [exact Nm|].
  assert (In n (po_names o)) as In' by (apply K; apply in_map_iff; exists (n, b); auto). apply zmem_In in In'.
  unfold p_get. cbn. rewrite In', (fold_dset_get (fun kb => snd kb) l N). rewrite (proj2 (dget_in l n b N) I). reflexivity.
Qed.
End Sum.
