(** C71: what a successful fit gives. *)
From Coq Require Import List ZArith Bool QArith String Ascii Lia.
From Verif Require Import Model.Arr Model.Core Model.Process Model.ProcLife Spec.ProcessSpec Spec.ProcLifeSpec Proofs.ProcessP Proofs.ProcessFinal
  Proofs.ProcLifeP Proofs.ProcLifeQ.
Import ListNotations.
Open Scope Z_scope.

Lemma rbind_ok {A B} (r : res A) (f : A -> res B) b : rbind r f = Ok b -> exists a, r = Ok a /\ f a = Ok b.
Proof. destruct r; cbn; [eauto|discriminate]. Qed.
Lemma set_params_setting c l : forall s s', set_params c s l = Ok s' ->
  v_name s' = setting e_name l (v_name s) /\ v_cat s' = setting e_cat l (v_cat s) /\
  v_prebins s' = setting e_prebins l (v_prebins s) /\ v_prebin_size s' = setting e_prebin_size l (v_prebin_size s) /\
  v_min_bins s' = setting e_min_bins l (v_min_bins s) /\ v_max_bins s' = setting e_max_bins l (v_max_bins s) /\
  v_min_size s' = setting e_min_size l (v_min_size s) /\ v_pvalue s' = setting e_pvalue l (v_pvalue s) /\
  v_all s' = setting e_all l (v_all s) /\ v_special s' = setting e_special l (v_special s) /\
  v_digits s' = setting e_digits l (v_digits s) /\ v_rest s' = setting e_rest l (v_rest s) /\
  v_max_size s' = setting e_max_size l (v_max_size s).
Proof.
  induction l as [|p l IH]; intros s s' H; cbn [set_params] in H; [injection H as <-; unfold setting; cbn; tauto|].
  apply rbind_ok in H. destruct H as (s1 & H1 & H2). specialize (IH _ _ H2).
  destruct s as [nm ct pb ps a b i x pv al sp d r].
  destruct p; cbn [set_param] in H1; try (injection H1 as <-; exact IH); try discriminate. destruct c; try discriminate; injection H1 as <-; exact IH.
Qed.

Section Fit.
Context {C Y W V T : Type} (w : world C Y W V T) (argsort : list Z -> list nat).
Notation St := (pst V).

Lemma fit_loop_get o k y sw cols : NoDup (map fst cols) -> forall d v, snd (fit_loop w o k y sw cols d v) = Ok tt ->
  forall n c, In (n, c) cols -> exists x t b, c = Ok x /\ fit_variable w o k n x y sw = Ok (t, b) /\
    dget (fst (fst (fit_loop w o k y sw cols d v))) n = Some t /\ dget (snd (fst (fit_loop w o k y sw cols d v))) n = Some b.
Proof using w.
  clear argsort.
  assert (K : forall cols d v n, ~ In n (map fst cols) -> dget (fst (fst (fit_loop w o k y sw cols d v))) n = dget d n /\
     dget (snd (fst (fit_loop w o k y sw cols d v))) n = dget v n).
  { intros l. induction l as [|[m c] l IH]; intros d v n H; cbn [fit_loop]; [auto|]. destruct (rbind c _) as [[t b]|e]; [|auto].
    destruct (IH (dset d m t) (dset v m b) n) as [-> ->]; [intros X; apply H; now right|]. rewrite !dget_dset.
    destruct (Z.eqb_spec m n) as [->|]; [destruct H; now left|auto]. }
  induction cols as [|[m c0] cols IH]; intros N d v R n c H; [destruct H|]. cbn [map fst] in N. inversion N as [|? ? N1 N2]; subst.
  cbn [fit_loop] in *. destruct (rbind c0 _) as [[t b]|e] eqn:E; [|discriminate]. destruct H as [H|H].
  - injection H as -> ->. apply rbind_ok in E. destruct E as (x & E1 & E2). exists x, t, b. split; [exact E1|]. split; [exact E2|].
    destruct (K cols (dset d n t) (dset v n b) n N1) as [-> ->]. rewrite !dget_dset, Z.eqb_refl. auto.
  - apply IH; assumption.
Qed.
(** a successful finish *)
Lemma finish_ok o s s' : finish w argsort o (s, Ok tt) = (s', Ok tt) -> exists k d sup,
  s_target s = Some k /\ stats_loop w k (s_vars s) (po_names o) (s_stats s) = (d, Ok tt) /\
  select argsort o (s_nvars s) d = (sup, Ok tt) /\ s' = with_fitted (with_support sup (with_stats d s)).
Proof.
  unfold finish, selection. cbn [fst snd]. destruct (s_target s) as [k|]; [|discriminate].
  destruct (stats_loop w k (s_vars s) (po_names o) (s_stats s)) as [d [[]|e]] eqn:SL; [|discriminate].
  destruct (select argsort o (s_nvars s) d) as [sup [[]|e]] eqn:S; [|discriminate]. intros H. injection H as <-. exists k, d, sup. auto.
Qed.
Lemma finish_ok' o r s' : finish w argsort o r = (s', Ok tt) -> r = (fst r, Ok tt).
Proof. unfold finish. destruct r as [s [[]|e]]; [reflexivity|discriminate]. Qed.
Lemma fit_ok o s X y sw s' : p_fit w argsort o s X y sw = (s', Ok tt) ->
  let k := w_target w y in let s2 := with_shape (x_rows X) (x_width X) (with_target k s) in
  params_ok o = true /\ k <> TUnsupported /\ (sw <> None -> k = TBinary) /\ crit_check w o k = Ok tt /\
  x_width X = List.length (po_names o) /\
  exists d v, fit_loop w o k y sw (x_columns X (po_names o)) (s_dtypes s) (s_vars s) = ((d, v), Ok tt) /\
  finish w argsort o (with_vars d v s2, Ok tt) = (s', Ok tt).
Proof.
  unfold p_fit, check_params. destruct (params_ok o); [|discriminate]. destruct (tkind_eqb (w_target w y) TUnsupported) eqn:U; [discriminate|].
  destruct (match sw with Some _ => _ | None => _ end) eqn:SW; [discriminate|]. destruct (crit_check w o (w_target w y)) as [[]|]; [|discriminate].
  destruct (Nat.eqb_spec (x_width X) (List.length (po_names o))); [|discriminate]. intros H. cbn zeta.
  split; [reflexivity|]. split; [intros Q; rewrite Q in U; discriminate|]. split.
  { intros Q. destruct sw; [|congruence]. destruct (w_target w y); try reflexivity; discriminate. }
  split; [reflexivity|]. split; [exact e|]. unfold fit_vars in H. pose proof (finish_ok' _ _ _ H) as E.
  cbn [s_dtypes s_vars with_shape with_target] in *.
  destruct (fit_loop w o (w_target w y) y sw (x_columns X (po_names o)) (s_dtypes s) (s_vars s)) as [[d v] r].
  cbn [fst] in E. assert (r = Ok tt) by congruence. subst r. exists d, v. auto.
Qed.
Lemma x_columns_in (X : xdata C) names i n : nth_error names i = Some n -> In (n, x_column X i n) (x_columns X names).
Proof.
  unfold x_columns. assert (G : forall l b i, nth_error l i = Some n -> In (n, x_column X (b + i) n) (map2 (fun i n => (n, x_column X i n)) (seq b (List.length l)) l)).
  { induction l as [|a l IH]; intros b [|j] H; try discriminate; cbn [List.length seq map2 In].
    - left. cbn in H. injection H as ->. now rewrite Nat.add_0_r.
    - right. specialize (IH (S b) j H). now replace (b + S j)%nat with (S b + j)%nat by lia. }
  intros H. exact (G names 0%nat i H).
Qed.
Lemma each_variable o s X y sw s' : NoDup (po_names o) -> p_fit w argsort o s X y sw = (s', Ok tt) ->
  forall i n, nth_error (po_names o) i = Some n -> exists x b v st,
    x_column X i n = Ok x /\ p_get o s' n = Ok b /\ class_of_target (w_target w y) (b_class b) /\ b_res b = Some v /\
    w_fit w (b_class b) (b_opts b) x y sw = Ok v /\
    options_handed_over o n (w_object w x || zmem n (po_cat o)) (b_opts b) /\
    v_max_size (b_opts b) = setting e_max_size (fit_params_of o n) None /\
    w_stats w (w_target w y) (b_class b) v = Ok st /\ dget (s_stats s') n = Some (w_target w y, st) /\ dget (s_vars s') n = Some b.
Proof.
  intros ND H i n Hn. destruct (fit_ok _ _ _ _ _ _ H) as (_ & U & SW & _ & _ & d & v & L & F).
  destruct (finish_ok _ _ _ F) as (k & d' & sup & Ek & Es & _ & ->). cbn in Ek. injection Ek as <-. cbn in Es.
  pose proof (fit_loop_get o (w_target w y) y sw (x_columns X (po_names o)) ltac:(now rewrite x_columns_names) (s_dtypes s) (s_vars s)) as G.
  rewrite L in G. destruct (G eq_refl n _ (x_columns_in X _ i n Hn)) as (x & t & b & Ex & Ef & Et & Eb). cbn [fst snd] in Et, Eb.
  assert (In n (po_names o)) as I by (eapply nth_error_In; exact Hn).
  pose proof (stats_loop_get w (w_target w y) v (po_names o) (s_stats s)) as SG. rewrite Es in SG. destruct (SG eq_refl ND n I) as (st & S1 & S2).
  cbn [fst] in S2. unfold obj_stats in S1. rewrite Eb in S1.
  unfold fit_variable in Ef. destruct (bclass_eqb (class_for (w_target w y)) CMulti && _); [discriminate|].
  apply rbind_ok in Ef. destruct Ef as (vo & Ep & Ef). apply rbind_ok in Ef. destruct Ef as (r & Ef & E3). injection E3 as <- <-.
  cbn [b_res b_class] in S1. apply set_params_setting in Ep. cbn in Ep.
  exists x, (mkB (class_for (w_target w y)) vo (Some r)), r, st. split; [exact Ex|]. split.
  { unfold p_get. cbn. apply zmem_In in I. rewrite I, Eb. reflexivity. }
  split; [unfold class_of_target; cbn; destruct (w_target w y); try reflexivity; congruence|]. split; [reflexivity|]. cbn [b_class b_opts].
  split.
  { rewrite <- Ef. destruct sw as [u|]; [|destruct (class_for _); reflexivity]. rewrite (SW ltac:(discriminate)). reflexivity. }
  unfold options_handed_over. fold (fit_params_of o n) in Ep. split; [tauto|]. split; [tauto|].
  split; [|split; [exact S2|exact Eb]].
  destruct (w_target w y); cbn in *; try exact S1. congruence.
Qed.

(** *** selection *)
Lemma fix_loop_ok names fixed : forall s sup, fix_loop names fixed s = (sup, Ok tt) -> fix_vars names fixed s = Ok sup.
Proof.
  induction fixed as [|n r IH]; intros s sup H; cbn in *; [now injection H as <-|]. destruct (index_of names n); [now apply IH|discriminate].
Qed.
Definition obj_stat (k : tkind) (b : bobj V) : var_stats :=
  match b_res b with Some v => match w_stats w k (b_class b) v with Ok s => s | Err _ => fun _ => 0 end | None => fun _ => 0 end.
Lemma fit_selects o s X y sw s' dflt : NoDup (po_names o) -> good (po_names o) s -> p_fit w argsort o s X y sw = (s', Ok tt) ->
  exists sup, s_support s' = Some sup /\ List.length sup = List.length (po_names o) /\
    map fst (s_stats s') = po_names o /\
    select_support argsort (po_names o) (po_fixed o) (po_crit o)
      (update_stats (obj_stat (w_target w y)) (po_names o) (s_vars s') dflt []) = Ok sup.
Proof.
  intros ND G H. pose proof (each_variable o s X y sw s' ND H) as EV.
  destruct (fit_ok _ _ _ _ _ _ H) as (_ & U & SW & _ & WD & d & v & L & F).
  destruct (finish_ok _ _ _ F) as (k & d' & sup & Ek & Es & Sel & ->). cbn in Ek. injection Ek as <-. cbn in Es, Sel. cbn in EV.
  destruct (g_stats _ _ G) as [j Hj].
  assert (K : map fst d' = po_names o).
  { pose proof (stats_loop_full w (w_target w y) v (po_names o) (s_stats s) j ND Hj) as Q. rewrite Es in Q. exact (Q eq_refl). }
  assert (D : map (fun kv => (fst kv, snd (snd kv))) d' = map (fun n => (n, obj_stat (w_target w y) (match dget v n with Some b => b | None => dflt end))) (po_names o)).
  { rewrite <- K. rewrite map_map. apply map_ext_in. intros [n [k st]] I. cbn [fst snd]. f_equal.
    assert (In n (po_names o)) as In' by (rewrite <- K; apply in_map_iff; exists (n, (k, st)); auto).
    destruct (In_nth_error _ _ In') as [i Hi]. destruct (EV i n Hi) as (x & b & r & st2 & _ & _ & _ & E4 & _ & _ & _ & E7 & E8 & E9).
    rewrite E9. assert (dget d' n = Some (k, st)) as Q by (apply dget_in; [rewrite K; exact ND|exact I]). rewrite Q in E8. injection E8 as _ ->.
    unfold obj_stat. rewrite E4, E7. reflexivity. }
  assert (UF := update_stats_fresh (obj_stat (w_target w y)) (po_names o) v dflt [] ND ltac:(intros ? ? [])). cbn [app] in UF.
  exists sup. cbn. split; [reflexivity|].
  assert (SL : select_support argsort (po_names o) (po_fixed o) (po_crit o) (update_stats (obj_stat (w_target w y)) (po_names o) v dflt []) = Ok sup).
  { rewrite UF, <- D. unfold select in Sel. unfold select_support. destruct (po_crit o) as [cs|]; [|injection Sel as <-; now rewrite WD].
    rewrite WD in Sel. destruct (Nat.eqb_spec (List.length d') (List.length (po_names o))) as [Q|Q]; [|discriminate].
    rewrite map_length, Q, Nat.eqb_refl. apply fix_loop_ok in Sel. rewrite <- Sel. f_equal. f_equal. apply map_ext. intros [m c]. cbn [fst snd].
    rewrite map_map. reflexivity. }
  split; [|split; [exact K|exact SL]].
  unfold select_support in SL. destruct (po_crit o) as [cs|]; [|injection SL as <-; now rewrite repeat_length].
  destruct (_ =? _)%nat; [|discriminate]. apply fix_vars_spec in SL; [tauto|].
  assert (CL : forall l s0, List.length s0 = List.length (po_names o) -> (forall vc, In vc l -> List.length (fst vc) = List.length (po_names o)) ->
     List.length (fold_left (fun s vc => crit_step argsort (fst vc) (snd vc) s) l s0) = List.length (po_names o)).
  { induction l as [|[vals c] l IH]; intros s0 Hs Hl; cbn [fold_left]; [exact Hs|]. apply IH; [|intros vc Q; apply Hl; now right].
    specialize (Hl (vals, c) (or_introl eq_refl)). cbn [fst snd] in *.
    assert (M2 : forall (a b : list bool), List.length a = List.length b -> List.length (map2 andb a b) = List.length a).
    { clear. intros a. induction a as [|x a IHa]; intros [|z b] Q; cbn in *; try lia. f_equal. apply IHa. lia. }
    unfold crit_step. assert (L1 : List.length (match c_min c with Some m => map2 andb s0 (map (fun v0 => m <=? v0) vals) | None => s0 end) = List.length (po_names o)).
    { destruct (c_min c); [rewrite M2; [exact Hs|rewrite map_length; congruence]|exact Hs]. }
    revert L1. generalize (match c_min c with Some m => map2 andb s0 (map (fun v0 => m <=? v0) vals) | None => s0 end). intros s1 L1.
    assert (L2 : List.length (match c_max c with Some m => map2 andb s1 (map (fun v0 => v0 <=? m) vals) | None => s1 end) = List.length (po_names o)).
    { destruct (c_max c); [rewrite M2; [exact L1|rewrite map_length; congruence]|exact L1]. }
    revert L2. generalize (match c_max c with Some m => map2 andb s1 (map (fun v0 => v0 <=? m) vals) | None => s1 end). intros s2 L2.
    destruct (c_strategy c), (c_top c); try exact L2. rewrite map_length, seq_length. exact L2. }
  unfold support_criteria. apply CL; [now rewrite repeat_length|]. intros vc Q. apply in_map_iff in Q. destruct Q as ([m c] & <- & _). cbn [fst].
  rewrite map_length, UF, map_length. reflexivity.
Qed.

(** *** fit_disk *)
Lemma disk_is_fit o s path f t c frame : path_check path = Ok tt -> dget f t = Some c ->
  (forall n, In n (po_names o) -> exists x, dget f n = Some x /\ dget frame n = Some x) ->
  List.length frame = List.length (po_names o) -> (forall n, In n (po_fixed o) -> In n (po_names o)) ->
  p_fit_disk w argsort o s path f t = p_fit w argsort o s (XFrame (w_len w (w_as_target w c)) frame) (w_as_target w c) None.
Proof.
  intros P Ht Hc Hl Hf. unfold p_fit_disk, p_fit. destruct (check_params o); [|reflexivity]. rewrite P. cbn [rbind]. unfold read_column at 1. rewrite Ht.
  destruct (tkind_eqb _ _); [reflexivity|]. destruct (crit_check w o _); [|reflexivity].
  replace (forallb (fun n => zmem n (po_names o)) (po_fixed o)) with true by (symmetry; apply forallb_forall; intros n Hn; apply zmem_In; auto).
  cbn [x_width x_rows]. rewrite Hl, Nat.eqb_refl. f_equal. f_equal.
  assert (G : forall l b, (forall n, In n l -> In n (po_names o)) ->
     map (fun n => (n, read_column f n)) l = map2 (fun i n => (n, x_column (XFrame (w_len w (w_as_target w c)) frame) i n)) (seq b (List.length l)) l).
  { induction l as [|n l IH]; intros b Hi; cbn [map List.length seq map2]; [reflexivity|]. f_equal; [|apply IH; intros m Q; apply Hi; now right].
    destruct (Hc n (Hi n (or_introl eq_refl))) as (x & E1 & E2). unfold read_column, x_column. now rewrite E1, E2. }
  apply G. auto.
Qed.

(** *** fit_from_dict *)
Lemma check_objects_ok (c : bclass) : c = CBin \/ c = CCont \/ c = CMulti -> forall (l : dict (bobj V)) seen,
  (seen = None \/ seen = Some c) -> l <> [] \/ seen = Some c ->
  (forall n b, In (n, b) l -> b_class b = c /\ b_res b <> None /\ (v_name (b_opts b) = Some n \/ v_name (b_opts b) = None)) ->
  check_objects seen l = Ok (Some c).
Proof.
  intros Hc. induction l as [|[n b] l IH]; intros seen Hs Hne H; cbn [check_objects].
  - destruct Hne as [Q| ->]; [congruence|reflexivity].
  - destruct (H n b (or_introl eq_refl)) as (E1 & E2 & E3). rewrite E1.
    assert (S1 : match seen with Some c0 => negb (bclass_eqb c0 c) | None => false end = false).
    { destruct Hs as [-> | ->]; [reflexivity|]. destruct Hc as [-> | [-> | ->]]; reflexivity. }
    destruct (b_res b) as [r|]; [|congruence].
    assert (S2 : match v_name (b_opts b) with Some m => negb (m =? n) | None => false end = false).
    { destruct E3 as [-> | ->]; [now rewrite Z.eqb_refl|reflexivity]. }
    assert (R : check_objects (Some c) l = Ok (Some c)) by (apply IH; [now right|now right|intros; apply H; now right]).
    destruct Hc as [-> | [-> | ->]]; cbn beta iota; rewrite S1, S2; exact R.
Qed.
Lemma stats_loop_ext k (v u : dict (bobj V)) names : (forall n, In n names -> dget v n = dget u n) -> forall d, stats_loop w k v names d = stats_loop w k u names d.
Proof.
  intros H. induction names as [|n r IH]; intros d; cbn [stats_loop]; [reflexivity|].
  assert (E : obj_stats w k v n = obj_stats w k u n) by (unfold obj_stats; now rewrite (H n (or_introl eq_refl))). rewrite E.
  destruct (obj_stats w k u n); [apply IH; intros m Q; apply H; now right|reflexivity].
Qed.
Lemma fold_dset_get {A B} (f : name * A -> B) (l : dict A) : NoDup (map fst l) -> forall d n,
  dget (fold_left (fun d kb => dset d (fst kb) (f kb)) l d) n = match dget l n with Some a => Some (f (n, a)) | None => dget d n end.
Proof.
  induction l as [|[k a] l IH]; intros N d n; cbn [fold_left dget]; [reflexivity|]. cbn [map fst] in N. inversion N as [|? ? N1 N2]; subst.
  rewrite (IH N2), dget_dset. cbn [fst]. destruct (Z.eqb_spec k n) as [->|Q]; [|reflexivity].
  assert (dget l n = None) as -> by (now apply dget_none). reflexivity.
Qed.
Lemma setting_none {A} (e : fparam -> option A) l d : (forall p, In p l -> e p = None) -> setting e l d = d.
Proof.
  unfold setting. induction l as [|p l IH]; intros H; cbn [fold_left]; [reflexivity|]. rewrite (H p (or_introl eq_refl)). apply IH. intros; apply H; now right.
Qed.
Lemma dict_is_fit o X y sw s1 l : NoDup (po_names o) -> po_names o <> [] -> p_fit w argsort o p_new X y sw = (s1, Ok tt) ->
  NoDup (map fst l) -> (forall n, In n (map fst l) <-> In n (po_names o)) ->
  (forall n b, In (n, b) l -> p_get o s1 n = Ok b) ->
  (forall n p, In n (po_names o) -> In p (fit_params_of o n) -> e_name p = None) ->
  exists s2, p_fit_dict w argsort o p_new l = (s2, Ok tt) /\ s_fitted s2 = true /\ s_target s2 = s_target s1 /\ s_nvars s2 = s_nvars s1 /\
    s_stats s2 = s_stats s1 /\ s_support s2 = s_support s1 /\ s_updated s2 = s_updated s1 /\ s_fitted s1 = true /\
    (forall n, dget (s_vars s2) n = dget (s_vars s1) n).
Proof.
  intros ND NE H Nl Kl Gl Nm. pose proof (each_variable o p_new X y sw s1 ND H) as EV.
  pose proof (good_step w argsort o p_new (KFit X y sw) ND (good_new _) I) as [G1 _]. cbn [step] in G1. rewrite H in G1. cbn [fst snd] in G1.
  destruct (fit_ok _ _ _ _ _ _ H) as (P & U & SW & Cr & WD & d & v & L & F).
  destruct (finish_ok _ _ _ F) as (k & d' & sup & Ek & Es & Sel & E1). cbn in Ek. injection Ek as <-. cbn in Es, Sel.
  set (k := w_target w y) in *.
  assert (HB : forall n b, In (n, b) l -> b_class b = class_for k /\ b_res b <> None /\ (v_name (b_opts b) = Some n \/ v_name (b_opts b) = None)).
  { intros n b I. assert (In n (po_names o)) as In' by (apply Kl, in_map_iff; exists (n, b); auto).
    destruct (In_nth_error _ _ In') as [i Hi]. destruct (EV i n Hi) as (x & b' & r & st & _ & E2 & E3 & E4 & _ & E6 & _).
    rewrite (Gl n b I) in E2. injection E2 as <-. split; [|split; [congruence|left]].
    - unfold class_of_target in E3. destruct k; cbn; try exact E3; destruct E3.
    - unfold options_handed_over in E6. destruct E6 as [-> _]. apply setting_none. intros p Hp. now apply (Nm n p). }
  assert (CO : check_objects None l = Ok (Some (class_for k))).
  { apply check_objects_ok; [destruct k; cbn; auto|now left| |exact HB]. left. intros ->. destruct (po_names o) as [|a r]; [congruence|].
    exact (proj2 (Kl a) (or_introl eq_refl)). }
  assert (KK : kind_of (class_for k) = k) by (destruct k; try reflexivity; congruence).
  unfold p_fit_dict, check_params. rewrite P.
  assert (FB : forallb (fun n => zmem n (po_names o)) (map fst l) && forallb (fun n => zmem n (map fst l)) (po_names o) = true).
  { apply andb_true_iff. split; apply forallb_forall; intros n Q; apply zmem_In; now apply Kl. }
  rewrite FB, CO. cbn [negb]. rewrite KK, Cr.
  assert (VG : forall n, dget (fold_left (fun d kb => dset d (fst kb) (snd kb)) l []) n = dget v n).
  { intros n. rewrite (fold_dset_get (fun kb => snd kb) l Nl). destruct (dget l n) as [b|] eqn:E.
    - cbn [snd]. assert (I := proj1 (dget_in l n b Nl) E). specialize (Gl n b I). subst s1. unfold p_get in Gl. cbn in Gl.
      destruct (zmem n (po_names o)); [|discriminate]. destruct (dget v n); [now injection Gl as ->|discriminate].
    - cbn. symmetry. apply dget_none. intros Q. apply dget_none in E. apply E, Kl. subst s1. exact (g_vk _ _ G1 n Q). }
  unfold finish, selection. cbn [fst snd s_target with_vars with_shape with_target s_vars s_stats s_nvars p_new].
  rewrite (stats_loop_ext k _ v (po_names o) (fun n _ => VG n)), Es. rewrite <- WD, Sel.
  eexists. split; [reflexivity|]. subst s1. cbn. do 7 (split; [reflexivity|]). exact VG.
Qed.
End Fit.
