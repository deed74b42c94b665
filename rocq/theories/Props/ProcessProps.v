(** Binning process (C40-C42, C57). *)
From Coq Require Import List ZArith Bool Lia Permutation Sorting.
From Verif Require Import Model.Arr Model.Core Model.Process Spec.ProcessSpec Proofs.ArrP Proofs.ProcessP Proofs.ProcessSel
  Proofs.ProcessFinal Proofs.ProcessT.
Import ListNotations.
Open Scope Z_scope.

(** ** C40: parallel fit *)
(** For every number of jobs and every schedule of the threads that finishes, the dict of fitted variables is the one of
    the sequential fit (same keys, same order, same objects), whatever the dict was before. *)
Theorem C40_parallel_fit_is_sequential {C V} (fitv : name -> C -> V) (X : frame C) names n_jobs sched (d r : dict V) :
  (1 <= n_jobs)%nat -> fit_threads fitv X names n_jobs sched d = Some r -> r = fit_seq fitv X 0 names d.
Proof. apply fit_threads_seq. Qed.
Print Assumptions C40_parallel_fit_is_sequential.
Theorem C40_blocks_in_any_order {C V} (fitv : name -> C -> V) (X : frame C) names n_jobs (d : dict V) : (1 <= n_jobs)%nat ->
  fit_par fitv X names n_jobs d = fit_seq fitv X 0 names d.
Proof. apply fit_par_seq. Qed.
Print Assumptions C40_blocks_in_any_order.
(** Sequential fit: a new object holds every variable, fitted on its own column. *)
Theorem C40_every_variable_fitted {C V} (fitv : name -> C -> V) (X : frame C) names : NoDup names ->
  map fst (fit_seq fitv X 0 names []) = names /\
  forall i n, nth_error names i = Some n -> dget (fit_seq fitv X 0 names []) n = Some (fitv n (column X i n)).
Proof.
  intros Hn.
  assert (G : forall i l (d : dict V), NoDup l -> (forall n, In n l -> ~ In n (map fst d)) ->
    fit_seq fitv X i l d = d ++ map2 (fun j n => (n, fitv n (column X j n))) (seq i (length l)) l).
  { intros i l. revert i. induction l as [|n l IH]; intros i d Hl Hd; cbn [fit_seq length seq map2]; [now rewrite app_nil_r|].
    inversion Hl; subst. rewrite dset_fresh by (apply Hd; now left). rewrite IH; [now rewrite <- app_assoc|assumption|].
    intros m Hm. rewrite map_app, in_app_iff. cbn. intros [H|[<-|[]]]; [|contradiction]. apply (Hd m); [now right|exact H]. }
  rewrite (G 0%nat names [] Hn) by (intros; intros []). cbn [app]. clear G. split.
  - generalize 0%nat. induction names as [|n l IH]; intros i; [reflexivity|]. cbn [length seq map2 map fst]. f_equal. apply IH. now inversion Hn.
  - assert (G : forall l a i m, NoDup l -> nth_error l i = Some m ->
      dget (map2 (fun j n => (n, fitv n (column X j n))) (seq a (length l)) l) m = Some (fitv m (column X (a + i) m))).
    { clear. intros l. induction l as [|n l IH]; intros a i m Hn E; [destruct i; discriminate|].
      cbn [length seq map2 dget]. inversion Hn as [|? ? Hni Hl]; subst. destruct i as [|i]; cbn [nth_error] in E.
      + injection E as <-. rewrite Z.eqb_refl. now rewrite Nat.add_0_r.
      + assert (n <> m). { intros ->. apply Hni. now apply nth_error_In in E. } destruct (Z.eqb_spec n m); [contradiction|].
        rewrite (IH (S a) i m Hl E). do 3 f_equal. lia. }
    intros i n E. now apply (G names 0%nat i n).
Qed.
Print Assumptions C40_every_variable_fitted.
Example C40_hyps_met : fit_threads (fun n c => n + c) (ByPos (fun i => Z.of_nat i)) [10; 20; 30] 2 [1; 0; 0; 1]%nat [(20, 5)]
  = Some [(20, 21); (10, 10); (30, 32)].
Proof. reflexivity. Qed.

(** ** C41: variable selection after fitting a new object *)
Theorem C41_selected_meet_bounds {V} argsort (stat : V -> var_stats) fitted dflt names fixed cs sup :
  argsort_ok argsort -> NoDup names -> (forall n, In n names -> exists v, dget fitted n = Some v) ->
  select_support argsort names fixed (Some cs) (update_stats stat names fitted dflt []) = Ok sup ->
  forall n, selected names sup n -> In n fixed \/
    forall m c, In (m, c) cs -> exists x, value_of stat fitted n m x /\ meets c x.
Proof. intros. eapply sel_bounds; eassumption. Qed.
Print Assumptions C41_selected_meet_bounds.
Theorem C41_fixed_always_selected {V} argsort (stat : V -> var_stats) fitted dflt names fixed cs sup :
  argsort_ok argsort -> NoDup names -> (forall n, In n names -> exists v, dget fitted n = Some v) ->
  select_support argsort names fixed (Some cs) (update_stats stat names fitted dflt []) = Ok sup ->
  forall n, In n fixed -> selected names sup n.
Proof. intros. eapply sel_fixed; eassumption. Qed.
Print Assumptions C41_fixed_always_selected.
(** At most "top" variables besides the fixed ones, for every metric with a ranking. *)
Theorem C41_at_most_top {V} argsort (stat : V -> var_stats) fitted dflt names fixed cs sup :
  argsort_ok argsort -> NoDup names -> (forall n, In n names -> exists v, dget fitted n = Some v) ->
  select_support argsort names fixed (Some cs) (update_stats stat names fitted dflt []) = Ok sup ->
  forall m c h t l, In (m, c) cs -> ranked c h t -> top_ok t -> NoDup l ->
    (forall n, In n l -> selected names sup n /\ ~ In n fixed) -> at_most_top t (length names) (length l).
Proof. intros. eapply sel_top; eassumption. Qed.
Print Assumptions C41_at_most_top.
(** A variable that meets all bounds is left out only if, for some metric with a ranking, all selected variables (except
    the fixed ones) are at least as good. *)
Theorem C41_best_ranked {V} argsort (stat : V -> var_stats) fitted dflt names fixed cs sup :
  argsort_ok argsort -> NoDup names -> (forall n, In n names -> exists v, dget fitted n = Some v) ->
  select_support argsort names fixed (Some cs) (update_stats stat names fitted dflt []) = Ok sup ->
  forall u, In u names -> ~ selected names sup u ->
  (forall m c, In (m, c) cs -> exists x, value_of stat fitted u m x /\ meets c x) ->
  exists m c h t, In (m, c) cs /\ ranked c h t /\
    forall v x y, selected names sup v -> ~ In v fixed -> value_of stat fitted v m x -> value_of stat fitted u m y ->
      at_least_as_good h x y.
Proof. intros. eapply sel_best; eassumption. Qed.
Print Assumptions C41_best_ranked.
(** One metric, no fixed variables: all variables that meet the bounds, or exactly as many as asked for. *)
Theorem C41_exactly_top {V} argsort (stat : V -> var_stats) fitted dflt names m c h t sup l l' :
  argsort_ok argsort -> NoDup names -> (forall n, In n names -> exists v, dget fitted n = Some v) ->
  ranked c h t -> top_ok t ->
  select_support argsort names [] (Some [(m, c)]) (update_stats stat names fitted dflt []) = Ok sup ->
  NoDup l -> (forall n, In n l <-> selected names sup n) ->
  NoDup l' -> (forall n, In n l' <-> In n names /\ exists x, value_of stat fitted n m x /\ meets c x) ->
  length l = length l' \/ exactly_top t (length l') (length l).
Proof. apply sel_exact. Qed.
Print Assumptions C41_exactly_top.
(** The selection succeeds whenever the fixed variables exist; otherwise it raises. *)
Theorem C41_total {V} argsort (stat : V -> var_stats) fitted dflt names fixed cs : NoDup names ->
  ((forall n, In n fixed -> In n names) ->
     exists sup, select_support argsort names fixed (Some cs) (update_stats stat names fitted dflt []) = Ok sup) /\
  (forall n, In n fixed -> ~ In n names ->
     select_support argsort names fixed (Some cs) (update_stats stat names fitted dflt []) = Err ValueError).
Proof.
  intros Hn. unfold select_support. rewrite (update_stats_fresh stat names fitted dflt [] Hn) by (intros; intros []).
  cbn [app]. rewrite map_length, Nat.eqb_refl. split; [apply fix_vars_ok|intros n H1 H2; now apply (fix_vars_err _ _ _ n)].
Qed.
Print Assumptions C41_total.
(** insertion sort of positions: an [argsort] that meets the assumption *)
Fixpoint insert_pos (l : list Z) (i : nat) (o : list nat) : list nat :=
  match o with [] => [i] | j :: r => if nth i l 0 <=? nth j l 0 then i :: o else j :: insert_pos l i r end.
Definition sort_pos (l : list Z) : list nat := fold_right (insert_pos l) [] (seq 0 (length l)).
Lemma sort_pos_ok : argsort_ok sort_pos.
Proof.
  intros l. unfold sort_pos. generalize (seq 0 (length l)). intros s. split.
  - induction s as [|i s IH]; [constructor|]. cbn [fold_right]. etransitivity; [|apply perm_skip; exact IH].
    generalize (fold_right (insert_pos l) [] s). intros o. induction o as [|j o IHo]; [reflexivity|]. cbn [insert_pos].
    destruct (_ <=? _); [reflexivity|]. rewrite IHo. apply perm_swap.
  - induction s as [|i s IH]; [constructor|]. cbn [fold_right]. revert IH. generalize (fold_right (insert_pos l) [] s).
    intros o. induction o as [|j o IHo]; intros H; [repeat constructor|]. cbn [insert_pos]. cbn [map] in H.
    inversion H as [|? ? Hs Hf]; subst. destruct (Z.leb_spec (nth i l 0) (nth j l 0)) as [Hle|Hlt]; cbn [map].
    + constructor; [exact H|]. constructor; [exact Hle|]. rewrite Forall_forall in *. intros x Hx. specialize (Hf x Hx). lia.
    + constructor; [now apply IHo|]. rewrite Forall_forall in *. intros x Hx. apply in_map_iff in Hx. destruct Hx as (k & <- & Hk).
      assert (Hk' : k = i \/ In k o).
      { clear - Hk. induction o as [|a o IH]; cbn [insert_pos In] in Hk; [intuition congruence|].
        destruct (_ <=? _); cbn [In] in *; intuition congruence. }
      destruct Hk' as [->|Hk']; [lia|]. apply Hf. apply in_map_iff. now exists k.
Qed.
(** values of metric 0: 7, 3, 9, 5; at least 4, the 2 highest; variable 2 fixed *)
Definition ex_fitted : dict Z := [(1, 7); (2, 3); (3, 9); (4, 5)].
Definition ex_crit : crit := mkC (Some 4) None (Some true) (Some (TopInt 2)).
Example C41_hyps_met :
  argsort_ok sort_pos /\ NoDup [1; 2; 3; 4] /\ (forall n, In n [1; 2; 3; 4] -> exists v, dget ex_fitted n = Some v) /\
  select_support sort_pos [1; 2; 3; 4] [2] (Some [(0%nat, ex_crit)]) (update_stats (fun v _ => v) [1; 2; 3; 4] ex_fitted 0 [])
  = Ok [true; true; true; false].
Proof.
  split; [apply sort_pos_ok|split; [|split; [|reflexivity]]].
  - repeat constructor; cbn; lia.
  - intros n H. cbn in H. repeat (destruct H as [<-|H]; [eexists; reflexivity|]). destruct H.
Qed.
(** A refit after variable_names was reordered reads the statistics in the order of the first fit: variable 2, whose
    metric is 0, is selected although the criterion asks for at least 5, and variable 1, whose metric is 10, is not. *)
Theorem C41_refit_reordered_refuted :
  let stat := fun (v : Z) (_ : nat) => v in
  let fitted := [(1, 10); (2, 0)] in
  select_support sort_pos [2; 1] [] (Some [(0%nat, mkC (Some 5) None None None)])
    (update_stats stat [2; 1] fitted 0 (update_stats stat [1; 2] fitted 0 [])) = Ok [true; false].
Proof. reflexivity. Qed.
Print Assumptions C41_refit_reordered_refuted.

(** ** C57: updating a variable of a fitted process *)
(** After summary() the support is the one of the criteria on the updated objects ... *)
Theorem C57_support_after_summary {V} argsort (stat : V -> var_stats) dflt names fixed crits fitted p n v : NoDup names -> In n names ->
  selection argsort stat dflt names fixed crits fitted [] false = Ok p ->
  summary argsort stat dflt names fixed crits (update_binned p n v)
  = selection argsort stat dflt names fixed crits (dset fitted n v) [] false.
Proof.
  intros Hn Hin H. unfold selection in H.
  set (st0 := update_stats stat names fitted dflt []) in *.
  assert (Hp : p_fitted p = fitted /\ p_stats p = st0).
  { destruct (select_support _ _ _ _ st0); cbn [rbind] in H; [|discriminate]. injection H as <-. split; reflexivity. }
  destruct Hp as [E1 E2]. unfold summary, update_binned. cbn [p_updated p_fitted p_stats]. unfold selection. rewrite E1, E2.
  assert (Es : update_stats stat names (dset fitted n v) dflt st0 = update_stats stat names (dset fitted n v) dflt []).
  { unfold st0. rewrite !(update_stats_fresh stat names _ dflt [] Hn) by (intros; intros []). cbn [app]. clear - Hn.
    set (g := fun n0 => stat match dget (dset fitted n v) n0 with Some v0 => v0 | None => dflt end).
    set (f := fun n0 => stat match dget fitted n0 with Some v0 => v0 | None => dflt end).
    unfold update_stats. fold g.
    assert (G : forall done todo, NoDup (done ++ todo) ->
      fold_left (fun d m => dset d m (g m)) todo (map (fun m => (m, g m)) done ++ map (fun m => (m, f m)) todo)
      = map (fun m => (m, g m)) (done ++ todo)).
    { intros done todo. revert done. induction todo as [|m r IH]; intros done H; cbn [fold_left map]; [now rewrite !app_nil_r|].
      assert (E : dset (map (fun m => (m, g m)) done ++ (m, f m) :: map (fun m => (m, f m)) r) m (g m)
                  = map (fun m => (m, g m)) (done ++ [m]) ++ map (fun m => (m, f m)) r).
      { clear IH. induction done as [|x done IHd]; cbn [app map dset]; [now rewrite Z.eqb_refl|]. cbn [app] in H. inversion H; subst.
        destruct (Z.eqb_spec x m) as [->|]; [exfalso; apply H2; apply in_app_iff; right; now left|]. now rewrite IHd. }
      rewrite E. rewrite IH; rewrite <- app_assoc; [reflexivity|exact H]. }
    apply (G [] names). exact Hn. }
  now rewrite Es.
Qed.
Print Assumptions C57_support_after_summary.
(** ... but until summary() is called, get_support() (and transform) keep the support of the old objects. *)
Theorem C57_stale_support_refuted :
  let sel := selection sort_pos (fun (v : Z) (_ : nat) => v) 0 [1; 2] [] (Some [(0%nat, mkC (Some 5) None None None)]) in
  exists p q, sel [(1, 10); (2, 0)] [] false = Ok p /\ sel (dset (dset [(1, 10); (2, 0)] 1 0) 2 10) [] false = Ok q /\
    p_support (update_binned (update_binned p 1 0) 2 10) = [true; false] /\ p_support q = [false; true].
Proof. cbv zeta. eexists. eexists. split; [reflexivity|split; [reflexivity|split; reflexivity]]. Qed.
Print Assumptions C57_stale_support_refuted.
Example C57_hyps_met : exists p, selection sort_pos (fun (v : Z) (_ : nat) => v) 0 [1; 2; 3; 4] [2] (Some [(0%nat, ex_crit)]) ex_fitted [] false = Ok p
  /\ p_support p = [true; true; true; false].
Proof. eexists. split; reflexivity. Qed.

(** ** C42: transform *)
(** Without binning_transform_params every variable is transformed with the call's arguments, whatever its place. *)
Theorem C42_no_params {A X Y} (tr : name -> targs A -> X -> Y) to_int sel (a : targs A) rows :
  transform tr to_int None sel a rows
  = Ok (map (fun r => map (fun n => store to_int (ta_metric a) (tr n a (r n))) sel) rows).
Proof.
  unfold transform. cbn [base_metric rbind params_fun]. f_equal.
  rewrite (rows_local tr (store to_int (ta_metric a)) (fun _ => no_params) sel a a rows).
  - unfold local_output, local_args. cbn. destruct a; reflexivity.
  - intros i j x y _ _ _. cbn. tauto.
  - intros. apply agree_refl.
Qed.
Print Assumptions C42_no_params.
(** With parameters: the i-th variable is transformed with the last entries given by the variables up to it (its own
    first), i.e. the entries of earlier variables leak. *)
Theorem C42_arguments_used {A X Y} (tr : name -> targs A -> X -> Y) st (params : name -> tparams A) sel a rows k r i n :
  nth_error rows k = Some r -> nth_error sel i = Some n ->
  exists out, nth_error (transform_rows tr st params sel a rows) k = Some out /\
    nth_error out i = Some (st (tr n (fold_left (fun s m => apply_params (params m) s) (firstn (S i) sel) a) (r n))).
Proof.
  intros Ek Ei. unfold transform_rows. rewrite nth_error_map, Ek. eexists. split; [reflexivity|]. now apply tv_nth.
Qed.
Print Assumptions C42_arguments_used.
(** Local if every variable after one with its own entry for a key has an entry for it too. *)
Theorem C42_local_partial {A X Y} (tr : name -> targs A -> X -> Y) to_int ps sel (a : targs A) rows b :
  base_metric (Some ps) sel (ta_metric a) = Ok b -> entries_stay ps sel ->
  transform tr to_int (Some ps) sel a rows = Ok (local_output tr (store to_int b) ps sel a rows).
Proof.
  intros Hb He. unfold transform. rewrite Hb. cbn [rbind params_fun]. f_equal.
  apply rows_local; [exact He|]. intros. apply agree_refl.
Qed.
Print Assumptions C42_local_partial.
(** Chunk by chunk: the same as the whole, for every chunk size, if all selected variables have the same keys. *)
Theorem C42_chunks_partial {A X Y} (tr : name -> targs A -> X -> Y) to_int params sel (a : targs A) chunksize rows :
  (forall ps, params = Some ps -> same_keys ps sel) ->
  transform_disk tr to_int params sel a chunksize rows = transform tr to_int params sel a rows.
Proof.
  intros Hk. unfold transform_disk, transform. destruct (base_metric params sel (ta_metric a)) as [b|]; [|reflexivity].
  cbn [rbind]. f_equal. assert (Hs : same_keys (params_fun params) sel).
  { destruct params as [ps|]; cbn [params_fun]; [now apply Hk|]. intros x y _ _. cbn. tauto. }
  rewrite (chunks_local tr (store to_int b) (params_fun params) sel a a _ Hs) by (intros; apply agree_refl).
  rewrite chunk_rows_concat. symmetry. apply rows_local; [now apply same_keys_stay|]. intros. apply agree_refl.
Qed.
Print Assumptions C42_chunks_partial.
(** The entry of variable 1 for metric_missing is used for variable 2, which has no entry. The transform below returns
    metric_missing. *)
Definition ex_tr (n : name) (a : targs Z) (x : Z) : Z := ta_missing a.
Definition ex_params (n : name) : tparams Z := if n =? 1 then mkT None None (Some 9) else no_params.
Theorem C42_leak_refuted :
  transform ex_tr (fun y => y) (Some ex_params) [1; 2] (mkA None 0 0) [fun _ => 5] = Ok [[9; 9]] /\
  local_output ex_tr (fun y => y) ex_params [1; 2] (mkA None 0 0) [fun _ => 5] = [[9; 0]].
Proof. split; reflexivity. Qed.
Print Assumptions C42_leak_refuted.
(** ... and when transforming from disk, for variable 3 in every chunk but the first, although it comes before. *)
Theorem C42_chunk_leak_refuted :
  transform_disk ex_tr (fun y => y) (Some ex_params) [3; 1] (mkA None 0 0) 1 [fun _ => 5; fun _ => 5] = Ok [[0; 9]; [9; 9]] /\
  transform ex_tr (fun y => y) (Some ex_params) [3; 1] (mkA None 0 0) [fun _ => 5; fun _ => 5] = Ok [[0; 9]; [0; 9]].
Proof. split; reflexivity. Qed.
Print Assumptions C42_chunk_leak_refuted.
(** transform(metric="indices") with a variable whose own entry asks for another numeric metric: the output is an integer
    array, so the values of this variable are truncated. *)
Theorem C42_indices_truncate_refuted {A X Y} (tr : name -> targs A -> X -> Y) to_int (sp mi : A) n m (x : X) :
  transform tr to_int (Some (fun _ => mkT (Some (Some (MetNumeric m))) None None)) [n] (mkA (Some MetIndices) sp mi) [fun _ => x]
  = Ok [[to_int (tr n (mkA (Some (MetNumeric m)) sp mi) x)]].
Proof. reflexivity. Qed.
Print Assumptions C42_indices_truncate_refuted.
Example C42_hyps_met : entries_stay ex_params [2; 1] /\ same_keys (fun _ => mkT None (Some 1) (Some 2)) [1; 2; 3] /\
  base_metric (Some ex_params) [2; 1] None = Ok None.
Proof.
  split; [|split; [|reflexivity]].
  - intros i j a b Hij Ea Eb. destruct i as [|i].
    + injection Ea as <-. cbn. tauto.
    + destruct j as [|[|j]]; [lia|lia|]. destruct j; discriminate.
  - intros a b _ _. cbn. tauto.
Qed.
