(** C71: fitted flag, paths, get_support, transform, updates. *)
From Coq Require Import List ZArith Bool QArith String Ascii Lia Sorted.
From Verif Require Import Model.Arr Model.Core Model.Process Model.ProcLife Spec.ProcessSpec Spec.ProcLifeSpec Proofs.ProcessP
  Proofs.ProcLifeP Proofs.ProcLifeQ Proofs.ProcLifeR.
Import ListNotations.
Open Scope Z_scope.

Section Flag.
Context {C Y W V T : Type} (w : world C Y W V T) (argsort : list Z -> list nat).
Notation St := (pst V).
Definition is_ok (r : res unit) : bool := match r with Ok _ => true | Err _ => false end.
Lemma sel_fitted' o s : s_fitted (fst (selection w argsort o s)) = s_fitted s.
Proof.
  unfold selection. destruct (s_target s); [|reflexivity]. destruct (stats_loop w t (s_vars s) (po_names o) (s_stats s)) as [d [q|e]]; [|reflexivity].
  destruct (select argsort o (s_nvars s) d). reflexivity.
Qed.
Lemma finish_fitted o r : s_fitted (fst (finish w argsort o r)) = is_ok (snd (finish w argsort o r)) || s_fitted (fst r).
Proof.
  unfold finish. destruct (snd r); [|reflexivity]. pose proof (sel_fitted' o (fst r)) as H. destruct (selection w argsort o (fst r)) as [s [q|e]]; [reflexivity|exact H].
Qed.
Lemma fit_vars_fitted o k y sw cols s : s_fitted (fst (fit_vars w o k y sw cols s)) = s_fitted s.
Proof. unfold fit_vars. destruct (fit_loop w o k y sw cols (s_dtypes s) (s_vars s)) as [[d v] r]. reflexivity. Qed.
Definition fits {A B} (a : answer A B) : bool := match a with ADone r => is_ok r | _ => false end.
Definition fit_call (c : call C Y W V) : bool := match c with KFit _ _ _ | KFitDisk _ _ _ | KFitDict _ => true | _ => false end.
Lemma step_fitted o s c : s_fitted (snd (fst (step w argsort (o, s) c))) = (fit_call c && fits (snd (step w argsort (o, s) c))) || s_fitted s.
Proof.
  destruct c; cbn [step fit_call andb].
  - assert (E : s_fitted (fst (p_fit w argsort o s X y sw)) = is_ok (snd (p_fit w argsort o s X y sw)) || s_fitted s).
    { unfold p_fit. destruct (check_params o); [|reflexivity]. destruct (tkind_eqb _ _); [reflexivity|].
      destruct (match sw with Some _ => _ | None => _ end); [reflexivity|]. destruct (crit_check w o _); [|reflexivity].
      destruct (_ =? _)%nat; [|reflexivity]. now rewrite finish_fitted, fit_vars_fitted. }
    destruct (p_fit w argsort o s X y sw). exact E.
  - assert (E : s_fitted (fst (p_fit_disk w argsort o s path file target)) = is_ok (snd (p_fit_disk w argsort o s path file target)) || s_fitted s).
    { unfold p_fit_disk. destruct (check_params o); [|reflexivity]. destruct (rbind _ _); [|reflexivity]. destruct (tkind_eqb _ _); [reflexivity|].
      destruct (crit_check w o _); [|reflexivity]. destruct (forallb _ _); [|reflexivity]. now rewrite finish_fitted, fit_vars_fitted. }
    destruct (p_fit_disk w argsort o s path file target). exact E.
  - assert (E : s_fitted (fst (p_fit_dict w argsort o s l)) = is_ok (snd (p_fit_dict w argsort o s l)) || s_fitted s).
    { unfold p_fit_dict. destruct (check_params o); [|reflexivity]. destruct (negb _); [reflexivity|].
      destruct (check_objects None l) as [[c|]|e]; try reflexivity. destruct (crit_check w o _); [|reflexivity]. now rewrite finish_fitted. }
    destruct (p_fit_dict w argsort o s l). exact E.
  - assert (E : s_fitted (fst (p_update o s n b)) = s_fitted s).
    { unfold p_update. destruct (negb (s_fitted s)); [reflexivity|]. destruct (negb (zmem n _)); [reflexivity|]. destruct (negb (accepts _ _)); [reflexivity|].
      destruct (dget (s_vars s) n); [|reflexivity]. destruct (match v_name _ with Some _ => _ | None => _ end); [reflexivity|].
      destruct (match v_name _ with Some _ => _ | None => _ end); reflexivity. }
    destruct (p_update o s n b). exact E.
  - assert (E : s_fitted (fst (p_summary w argsort o s)) = s_fitted s).
    { unfold p_summary. destruct (negb (s_fitted s)); [reflexivity|]. destruct (s_updated s); [|reflexivity]. pose proof (sel_fitted' o s) as H.
      destruct (selection w argsort o s) as [s' [q|e]]; exact H. }
    destruct (p_summary w argsort o s). exact E.
  - reflexivity.
  - reflexivity.
  - reflexivity.
  - reflexivity.
  - reflexivity.
Qed.
Lemma run_fitted h : forall o s, s_fitted (snd (fst (run w argsort (o, s) h))) = true <->
  s_fitted s = true \/ some_fit_succeeded (combine h (snd (run w argsort (o, s) h))).
Proof.
  induction h as [|c h IH]; intros o s; cbn [run].
  - cbn. split; [now left|]. intros [H|(c & _ & [])]. exact H.
  - pose proof (step_fitted o s c) as F. destruct (step w argsort (o, s) c) as [[o1 s1] a]. cbn [fst snd] in F. specialize (IH o1 s1).
    destruct (run w argsort (o1, s1) h) as [os2 l]. cbn [fst snd combine] in *. rewrite IH, F.
    split.
    + intros [H|(c' & H1 & H2)].
      * apply orb_true_iff in H. destruct H as [H|H]; [|now left]. right. apply andb_true_iff in H. destruct H as [H1 H2].
        exists c. split; [destruct c; try discriminate; exact I|]. left. f_equal. destruct a; try discriminate. cbn in H2. destruct r as [[]|]; [reflexivity|discriminate].
      * right. exists c'. split; [exact H1|now right].
    + intros [H|(c' & H1 & [H2|H2])].
      * left. rewrite H. now rewrite orb_true_r.
      * left. injection H2 as -> ->. cbn [fits is_ok]. destruct c'; try destruct H1; reflexivity.
      * right. exists c'. auto.
Qed.
Lemma not_fitted_raises o s c : s_fitted s = false -> needs_fit c -> raises (snd (step w argsort (o, s) c)) NotFitted.
Proof.
  intros F H. destruct c; try destruct H; cbn [step].
  - unfold p_update. rewrite F. reflexivity.
  - unfold p_summary. rewrite F. reflexivity.
  - cbn. unfold p_information. rewrite F. reflexivity.
  - cbn. unfold p_get. rewrite F. reflexivity.
  - cbn. unfold p_support. rewrite F. reflexivity.
  - cbn. unfold p_transform. rewrite F. reflexivity.
Qed.
Lemma fitted_reads o s c : s_fitted s = true -> match c with KUpdate _ _ | KInformation | KGet _ | KSupport _ _ => True | _ => False end ->
  ~ raises (snd (step w argsort (o, s) c)) NotFitted.
Proof.
  intros F H. destruct c; try destruct H; cbn [step].
  - unfold p_update. rewrite F. cbn [negb]. destruct (negb (zmem n _)); [discriminate|]. destruct (negb (accepts _ _)); [discriminate|].
    destruct (dget (s_vars s) n); [|discriminate]. destruct (match v_name _ with Some _ => _ | None => _ end); [discriminate|].
    destruct (match v_name _ with Some _ => _ | None => _ end); discriminate.
  - cbn. unfold p_information. rewrite F. cbn. destruct (s_support s); discriminate.
  - cbn. unfold p_get. rewrite F. cbn. destruct (zmem n _); [destruct (dget _ n)|]; discriminate.
  - cbn. unfold p_support. rewrite F. cbn. destruct (indices && names); [discriminate|]. destruct (s_support s); [|discriminate].
    destruct indices; [discriminate|]. destruct names; [destruct (_ =? _)%nat|]; discriminate.
Qed.

(** *** paths *)
End Flag.
Lemma split_dotless s : dotless s -> split_dots s = [s].
Proof. induction s as [|a s IH]; intros H; cbn; [reflexivity|]. destruct H as [H1 H2]. apply Ascii.eqb_neq in H1. rewrite H1, (IH H2). reflexivity. Qed.
Lemma split_app s t : dotless s -> split_dots (s ++ String "."%char t) = s :: split_dots t.
Proof.
  induction s as [|a s IH]; intros H; [reflexivity|]. destruct H as [H1 H2]. apply Ascii.eqb_neq in H1. cbn [append split_dots]. rewrite H1, (IH H2). reflexivity.
Qed.

(** *** get_support and transform *)
Lemma where_true_spec sup i : In i (where_true sup) <-> nth_error sup i = Some true.
Proof.
  unfold where_true. rewrite filter_In, in_seq. split.
  - intros [H1 H2]. destruct (nth_error sup i) as [b|] eqn:E; [|apply nth_error_None in E; lia]. rewrite (nth_error_nth _ _ _ E) in H2. now subst.
  - intros H. assert (i < List.length sup)%nat by (apply nth_error_Some; congruence). split; [lia|]. now rewrite (nth_error_nth _ _ _ H).
Qed.
Lemma sorted_filter_seq p n : forall a, StronglySorted lt (filter p (seq a n)).
Proof.
  induction n as [|n IH]; intros a; cbn [seq filter]; [constructor|]. destruct (p a); [|apply IH]. constructor; [apply IH|].
  apply Forall_forall. intros x H. apply filter_In in H. destruct H as [H _]. apply in_seq in H. lia.
Qed.
Lemma mask_names_spec : forall names sup, List.length sup = List.length names ->
  Forall2 (fun i n => nth_error names i = Some n) (where_true sup) (mask_names names sup).
Proof.
  assert (G : forall names sup b, List.length sup = List.length names ->
     Forall2 (fun i n => nth_error names (i - b) = Some n /\ (b <= i)%nat) (filter (fun i => nth (i - b) sup false) (seq b (List.length sup))) (mask_names names sup)).
  { induction names as [|n names IH]; intros [|x sup] b H; cbn [List.length] in H; try lia; cbn [List.length seq filter mask_names]; [constructor|].
    rewrite Nat.sub_diag. cbn [nth].
    assert (E : Forall2 (fun i n0 => nth_error (n :: names) (i - b) = Some n0 /\ (b <= i)%nat)
       (filter (fun i => nth (i - b) (x :: sup) false) (seq (S b) (List.length sup))) (mask_names names sup)).
    { specialize (IH sup (S b) ltac:(lia)). replace (filter (fun i => nth (i - b) (x :: sup) false) (seq (S b) (List.length sup))) with
        (filter (fun i => nth (i - S b) sup false) (seq (S b) (List.length sup))).
      - revert IH. generalize (filter (fun i => nth (i - S b) sup false) (seq (S b) (List.length sup))) (mask_names names sup).
        induction 1 as [|i m l l' [R1 R2] R3 IHf]; constructor; [|exact IHf]. split; [|lia]. replace (i - b)%nat with (S (i - S b)) by lia. exact R1.
      - apply filter_ext_in. intros i Hi. apply in_seq in Hi. replace (i - b)%nat with (S (i - S b)) by lia. reflexivity. }
    destruct x; [constructor; [rewrite Nat.sub_diag; split; [reflexivity|lia]|exact E]|exact E]. }
  intros names sup H. specialize (G names sup 0%nat H). unfold where_true. 
  replace (filter (fun i => nth i sup false) (seq 0 (List.length sup))) with (filter (fun i => nth (i - 0) sup false) (seq 0 (List.length sup)))
    by (apply filter_ext; intros i; now rewrite Nat.sub_0_r).
  revert G. generalize (filter (fun i => nth (i - 0) sup false) (seq 0 (List.length sup))) (mask_names names sup).
  induction 1 as [|i m l l' [R1 R2] R3 IHf]; constructor; [|exact IHf]. now rewrite Nat.sub_0_r in R1.
Qed.
Lemma where_none sup : existsb (fun b : bool => b) sup = false -> where_true sup = [].
Proof.
  intros H. destruct (where_true sup) as [|i l] eqn:E; [reflexivity|]. exfalso. assert (In i (where_true sup)) as Q by (rewrite E; now left).
  apply where_true_spec in Q. apply nth_error_In in Q. assert (existsb (fun b : bool => b) sup = true) by (apply existsb_exists; exists true; auto). congruence.
Qed.
Section Flag2.
Context {C Y W V T : Type} (w : world C Y W V T).
Notation St := (pst V).
Lemma transform_all_spec o (s : St) X l out : s_fitted s = true -> transform_all w o s X l = Ok out ->
  Forall2 (fun i nt => nth_error (po_names o) i = Some (fst nt) /\ exists b v x, p_get o s (fst nt) = Ok b /\ b_res b = Some v /\
    x_column X i (fst nt) = Ok x /\ w_apply w (b_class b) (b_opts b) v x = Ok (snd nt)) l out.
Proof.
  intros F. revert out. induction l as [|i l IH]; intros out H; cbn [transform_all] in H; [injection H as <-; constructor|].
  apply rbind_ok in H. destruct H as (nt & H1 & H). apply rbind_ok in H. destruct H as (ts & H2 & H). injection H as <-.
  constructor; [|now apply IH]. unfold transform_one in H1. destruct (nth_error (po_names o) i) as [n|] eqn:En; [|discriminate].
  destruct (dget (s_vars s) n) as [b|] eqn:Eb; [|discriminate]. apply rbind_ok in H1. destruct H1 as (x & Ex & H1).
  destruct (b_res b) as [v|] eqn:Er; [|discriminate]. apply rbind_ok in H1. destruct H1 as (t & Et & H1). injection H1 as <-. cbn [fst snd].
  split; [reflexivity|]. exists b, v, x. split; [|auto]. unfold p_get. rewrite F. cbn [negb].
  assert (zmem n (po_names o) = true) as -> by (apply zmem_In; eapply nth_error_In; exact En). now rewrite Eb.
Qed.
End Flag2.
