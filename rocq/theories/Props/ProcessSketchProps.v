(** Property theorems for BinningProcessSketch (C66). The sketch of a variable (BSketch, BCatSketch) and its solver are arbitrary. *)
From Coq Require Import List ZArith Bool Arith Lia QArith.
From Verif Require Import Model.Arr Model.Core Model.Process Model.ProcessSketch Spec.ProcessSketchSpec Proofs.ProcSkP.
Import ListNotations.
Open Scope Z_scope.

(** After any history of add, merge and solve calls, every variable is in the state of an OptimalBinningSketch of its own that was
    given, in order, the columns of the batches containing the variable; in particular the order of the columns, the other
    variables and batches without the variable do not matter. *)
Theorem C66_each_variable_alone : forall D C T (ops : sk_ops D C T) o h st,
  NoDup (nl (bo_names o)) -> frames_ok h -> exec ops o h = Ok st -> bs_started st = true ->
  forall v, In v (nl (bo_names o)) -> exists k, dget (bs_vars st) v = Some k /\ live ops (opts_for o v) (seen_by v h) = Ok k.
Proof.
  intros * ND HF HE HS v Hv. destruct (exec_inv ops o ND h st HF HE) as (I & _). destruct (I v Hv) as (k & Hk & A & _). exists k. split; [now apply A|exact Hk].
Qed.
Print Assumptions C66_each_variable_alone.

(** Without selection criteria the history succeeds exactly when it does for every variable on its own. *)
Theorem C66_succeeds_iff : forall D C T (ops : sk_ops D C T) o h,
  NoDup (nl (bo_names o)) -> nl (bo_names o) <> [] -> bo_criteria o = None -> frames_ok h ->
  ((exists st, exec ops o h = Ok st) <->
   forall v, In v (nl (bo_names o)) -> exists k : osk D T, live ops (opts_for o v) (seen_by v h) = Ok k).
Proof.
  intros * ND NE NC HF. split; [|now apply exec_total].
  intros (st & HE) v Hv. destruct (exec_inv ops o ND h st HF HE) as (I & _). destruct (I v Hv) as (k & Hk & _). eauto.
Qed.
Print Assumptions C66_succeeds_iff.

(** After a successful solve, every variable is selected and has the table that its own sketch computes from the data added so far. *)
Theorem C66_solved : forall D C T (ops : sk_ops D C T) o h st,
  NoDup (nl (bo_names o)) -> frames_ok h -> exec ops o (HSolve h) = Ok st ->
  bs_solved st = true /\ select (bs_support st) (nl (bo_names o)) = nl (bo_names o) /\
  forall v, In v (nl (bo_names o)) -> exists k d t, live ops (opts_for o v) (seen_by v h) = Ok k /\ k_data k = Some d /\
    d_solve ops (opts_for o v) d = Ok t /\ option_map k_table (dget (bs_vars st) v) = Some (Some t).
Proof.
  intros * ND HF HE. pose proof (exec_inv ops o ND (HSolve h) st HF HE) as (I & I2 & _).
  cbn [exec] in HE. apply rbind_ok in HE. destruct HE as (st0 & E0 & HE). unfold and_then, bp_solve in HE. destruct (bs_nadd st0 =? 0); [discriminate|].
  destruct (solve_vars ops (nl (bo_names o)) (bs_vars st0)) as [vars [u|e]] eqn:Em; cbn in HE; [|discriminate]. destruct u. destruct (bo_criteria o); cbn in HE; [discriminate|]. injection HE as <-.
  split; [reflexivity|]. split; [cbn [bs_support]; generalize (nl (bo_names o)); clear; intros l; induction l as [|a l IH]; [reflexivity|cbn; now rewrite IH]|].
  intros v Hv. destruct (I v Hv) as (k' & Hl & _). cbn [seen_by live] in Hl. apply rbind_ok in Hl. destruct Hl as (k & Hk & Hs). exists k.
  assert (Ko : k_opts k = opts_for o v).
  { clear -Hk. revert k Hk. generalize (seen_by v h). induction l as [|l IH c|l IH l2 _|l IH]; intros k Hk; cbn [live] in Hk.
    - now injection Hk as <-.
    - apply rbind_ok in Hk. destruct Hk as (a & Ha & Hk). rewrite <- (IH a Ha). unfold and_then, k_add in Hk. destruct (d_add ops _ c); cbn in Hk; [|discriminate]. now injection Hk as <-.
    - apply rbind_ok in Hk. destruct Hk as (a & Ha & Hk). rewrite <- (IH a Ha). apply rbind_ok in Hk. destruct Hk as (b & _ & Hk). unfold and_then, k_merge in Hk.
      destruct (k_data a), (k_data b); cbn in Hk; try discriminate. destruct (d_merge ops _ _); cbn in Hk; [|discriminate]. now injection Hk as <-.
    - apply rbind_ok in Hk. destruct Hk as (a & Ha & Hk). rewrite <- (IH a Ha). unfold and_then, k_solve in Hk. destruct (k_nadd a =? 0); cbn in Hk; [discriminate|].
      destruct (k_data a); cbn in Hk; [|discriminate]. destruct (d_solve ops _ _); cbn in Hk; [|discriminate]. now injection Hk as <-. }
  unfold and_then, k_solve in Hs. destruct (k_nadd k =? 0); cbn in Hs; [discriminate|]. destruct (k_data k) as [d|] eqn:Ed; cbn in Hs; [|discriminate].
  rewrite Ko in Hs. destruct (d_solve ops (opts_for o v) d) as [t|] eqn:Et; cbn in Hs; [|discriminate]. injection Hs as Hs.
  exists d, t. split; [exact Hk|]. split; [reflexivity|]. split; [exact Et|].
  destruct (I v Hv) as (k2 & Hl2 & A & _). cbn [seen_by live] in Hl2. rewrite Hk in Hl2. cbn [rbind] in Hl2. unfold and_then, k_solve in Hl2.
  destruct (k_nadd k =? 0); cbn in Hl2; [discriminate|]. rewrite Ed, Ko, Et in Hl2. cbn in Hl2. injection Hl2 as Hl2.
  cbn [bs_started bs_vars] in A, I2 |- *. destruct (bs_started st0).
  - rewrite (A eq_refl), <- Hl2. reflexivity.
  - exfalso. assert (Hd : exists kk, dget vars v = Some kk) by (destruct (proj1 (solve_vars_ok ops _ _ _ ND Em v) Hv) as (? & ? & _ & ? & _); eauto).
    destruct Hd as (kk & Hd). rewrite I2 in Hd by reflexivity. discriminate.
Qed.
Print Assumptions C66_solved.

(** The number of samples reported by information() is the number of rows added to this object... *)
Theorem C66_n_samples_partial : forall D C T (ops : sk_ops D C T) o h st,
  NoDup (nl (bo_names o)) -> frames_ok h -> exec ops o h = Ok st -> bs_nsamples st = own_rows h.
Proof. intros * ND HF HE. now destruct (exec_inv ops o ND h st HF HE) as (_ & _ & H & _). Qed.
Print Assumptions C66_n_samples_partial.
(** ...so the records of a merged process are missing from it, although they are in the tables. *)
Theorem C66_merged_samples_refuted : forall D C T (ops : sk_ops D C T) o h h2 st,
  NoDup (nl (bo_names o)) -> frames_ok (HMerge h h2) -> exec ops o (HMerge h h2) = Ok st -> rows_ok (HMerge h h2) -> 0 < all_rows h2 ->
  bs_nsamples st < all_rows (HMerge h h2).
Proof.
  intros * ND HF HE [R1 R2] Hp. rewrite (C66_n_samples_partial _ _ _ ops o _ st ND HF HE). cbn [own_rows all_rows].
  assert (G : forall g : hist C, rows_ok g -> own_rows g <= all_rows g /\ 0 <= own_rows g).
  { induction g as [|g IH c r|g IH g2 IH2|g IH]; cbn [rows_ok own_rows all_rows]; [lia| | |exact IH].
    - intros [A B]. specialize (IH A). lia.
    - intros [A B]. specialize (IH A). specialize (IH2 B). lia. }
  pose proof (G h R1). lia.
Qed.
Print Assumptions C66_merged_samples_refuted.

(** With selection criteria solve always raises (it reads an attribute this class does not have), so they cannot be used. *)
Theorem C66_selection_criteria_raise_refuted : forall D C T (ops : sk_ops D C T) o st, bo_criteria o <> None ->
  (exists x, snd (bp_solve ops o st) = Err x) /\ bs_solved (fst (bp_solve ops o st)) = bs_solved st.
Proof.
  intros * Hc. unfold bp_solve. destruct (bs_nadd st =? 0); [cbn; eauto|]. destruct (solve_vars _ _ _) as [vars [u|e]]; [|cbn; eauto].
  destruct (bo_criteria o); [cbn; eauto|congruence].
Qed.
Print Assumptions C66_selection_criteria_raise_refuted.
Theorem C66_never_solved_with_criteria : forall D C T (ops : sk_ops D C T) o h st, bo_criteria o <> None ->
  exec ops o h = Ok st -> bs_solved st = false.
Proof.
  intros * Hc. revert st. induction h as [|h IH c r|h IH h2 _|h IH]; intros st HE; cbn [exec] in HE.
  - now injection HE as <-.
  - apply rbind_ok in HE. destruct HE as (s & E & HE). specialize (IH s E). unfold and_then, bp_add in HE. destruct (add_cols _ _ _ _) as [vars [u|e]]; cbn in HE; [|discriminate].
    injection HE as <-. cbn. unfold bp_start. destruct (bs_started s); exact IH.
  - apply rbind_ok in HE. destruct HE as (s & E & HE). specialize (IH s E). apply rbind_ok in HE. destruct HE as (s2 & _ & HE). unfold and_then, bp_merge in HE.
    destruct (mergeable o o) as [[|]|]; cbn in HE; try discriminate. destruct (merge_vars _ _ _ _) as [vars [u|e]]; cbn in HE; [|discriminate]. injection HE as <-. exact IH.
  - apply rbind_ok in HE. destruct HE as (s & _ & HE). unfold and_then in HE. destruct (C66_selection_criteria_raise_refuted _ _ _ ops o s Hc) as ((x & Hx) & _). rewrite Hx in HE. discriminate.
Qed.
Print Assumptions C66_never_solved_with_criteria.

(** max_bin_size is ignored: changing it changes nothing, whatever is done afterwards. *)
Definition with_max_size (o : bp_opts) (q : option Q) : bp_opts :=
  mkBO (bo_names o) (bo_cat o) (bo_prebins o) (bo_min_bins o) (bo_max_bins o) (bo_min_size o) q (bo_pvalue o) (bo_all o) (bo_special o)
    (bo_digits o) (bo_criteria o) (bo_fit o).
Theorem C66_max_bin_size_ignored_refuted : forall D C T (ops : sk_ops D C T) o q h, exec ops (with_max_size o q) h = exec ops o h.
Proof.
  intros D C T ops o q.
  assert (A : forall st cols rows, bp_add ops (with_max_size o q) st cols rows = bp_add ops o st cols rows) by reflexivity.
  assert (S : forall st, bp_solve ops (with_max_size o q) st = bp_solve ops o st) by reflexivity.
  induction h as [|h IH c r|h IH h2 IH2|h IH]; cbn [exec]; [reflexivity| | |].
  - rewrite IH. destruct (exec ops o h); cbn [rbind]; [now rewrite A|reflexivity].
  - rewrite IH, IH2. destruct (exec ops o h); cbn [rbind]; [|reflexivity]. destruct (exec ops o h2); cbn [rbind]; [|reflexivity].
    unfold bp_merge. rewrite !mergeable_refl. reflexivity.
  - rewrite IH. destruct (exec ops o h); cbn [rbind]; [now rewrite S|reflexivity].
Qed.
Print Assumptions C66_max_bin_size_ignored_refuted.

(** The options of a variable without its own entry in binning_fit_params are those of the process (max_bin_size: see above); an entry
    overrides exactly the options it names. *)
Theorem C66_options_partial : forall o v, dget (bo_fit o) v = None ->
  (so_cat (opts_for o v) = true <-> In v (bo_cat o)) /\ so_prebins (opts_for o v) = bo_prebins o /\ so_min_bins (opts_for o v) = bo_min_bins o /\
  so_max_bins (opts_for o v) = bo_max_bins o /\ so_min_size (opts_for o v) = bo_min_size o /\ so_pvalue (opts_for o v) = bo_pvalue o /\
  so_all (opts_for o v) = bo_all o /\ so_special (opts_for o v) = bo_special o /\ so_digits (opts_for o v) = bo_digits o.
Proof. intros o v H. unfold opts_for. rewrite H. cbn. rewrite zmem_iff. tauto. Qed.
Print Assumptions C66_options_partial.
Theorem C66_fit_params_override : forall o v l x, dget (bo_fit o) v = Some (l ++ [FMaxSize x]) ->
  so_max_size (opts_for o v) = x /\ so_cat (opts_for o v) = zmem v (bo_cat o) /\
  so_pvalue (opts_for o v) = bo_pvalue o /\ so_all (opts_for o v) = bo_all o /\ so_special (opts_for o v) = bo_special o /\ so_digits (opts_for o v) = bo_digits o.
Proof.
  intros o v l x H. unfold opts_for. rewrite H, fold_left_app. cbn [fold_left].
  match goal with |- context [fold_left set_param l ?a] => set (s0 := a) end.
  assert (G : forall l s, let r := fold_left set_param l s in so_cat r = so_cat s /\ so_pvalue r = so_pvalue s /\ so_all r = so_all s /\ so_special r = so_special s /\ so_digits r = so_digits s).
  { clear. induction l as [|p l IH]; intros s; cbn [fold_left]; [auto|]. destruct (IH (set_param s p)) as (A1 & A2 & A3 & A4 & A5). cbv zeta in *. rewrite A1, A2, A3, A4, A5. destruct s, p; cbn; auto. }
  destruct (G l s0) as (A1 & A2 & A3 & A4 & A5). cbv zeta in *. destruct (fold_left set_param l s0); cbn in *. subst s0. cbn in *. subst. auto 10.
Qed.
Print Assumptions C66_fit_params_override.

(** Data cannot be merged into a new process, nor a new process into another one. *)
Theorem C66_merge_new_raises_refuted : forall D C T (ops : sk_ops D C T) o st, nl (bo_names o) <> [] ->
  bp_merge ops o bp_init o st = (bp_init, Err OtherError) /\ bp_merge ops o st o bp_init = (st, Err OtherError).
Proof.
  intros * NE. unfold bp_merge. rewrite mergeable_refl. destruct (nl (bo_names o)) as [|v r]; [contradiction|]. cbn.
  split; [reflexivity|]. destruct (dget (bs_vars st) v); destruct st; reflexivity.
Qed.
Print Assumptions C66_merge_new_raises_refuted.

(** A variable without any column in the batches added to this object makes solve raise, whatever was merged into it. *)
Theorem C66_missing_variable_raises : forall D C T (ops : sk_ops D C T) o h v,
  NoDup (nl (bo_names o)) -> frames_ok h -> In v (nl (bo_names o)) -> ~ appears v h -> exists x, exec ops o (HSolve h) = Err x.
Proof.
  intros * ND HF Hv NA. destruct (exec ops o (HSolve h)) as [st|x] eqn:E; [exfalso|eauto].
  destruct (exec_inv ops o ND (HSolve h) st HF E) as (I & _). destruct (I v Hv) as (k' & Hl & _). cbn [seen_by live] in Hl.
  apply rbind_ok in Hl. destruct Hl as (k & Hk & Hs). destruct (k_solve_nadd ops _ _ Hs) as [_ Hn]. apply Hn. clear -HF Hk NA.
  revert k Hk. induction h as [|h IH cols rows|h IH h2 _|h IH]; intros k Hk; cbn [seen_by appears frames_ok] in *.
  - cbn in Hk. now injection Hk as <-.
  - rewrite column_of_None in Hk by tauto. apply IH; tauto.
  - cbn [live] in Hk. apply rbind_ok in Hk. destruct Hk as (a & Ha & Hk). apply rbind_ok in Hk. destruct Hk as (b & _ & Hk).
    rewrite (k_merge_nadd ops _ _ _ Hk). apply IH; tauto.
  - cbn [live] in Hk. apply rbind_ok in Hk. destruct Hk as (a & Ha & Hk). rewrite (proj1 (k_solve_nadd ops _ _ Hk)). apply IH; tauto.
Qed.
Print Assumptions C66_missing_variable_raises.

(** Two processes given the same options, but the names as two numpy arrays, cannot be merged: comparing the parameters raises. *)
Definition with_names (o : bp_opts) (n : nlist) : bp_opts :=
  mkBO n (bo_cat o) (bo_prebins o) (bo_min_bins o) (bo_max_bins o) (bo_min_size o) (bo_max_size o) (bo_pvalue o) (bo_all o) (bo_special o)
    (bo_digits o) (bo_criteria o) (bo_fit o).
Theorem C66_array_names_merge_raises_refuted : forall D C T (ops : sk_ops D C T) o i j names (st st2 : bps D T), i <> j -> (2 <= length names)%nat ->
  bp_merge ops (with_names o (mkN true i names)) st (with_names o (mkN true j names)) st2 = (st, Err ValueError).
Proof.
  intros * Hij Hl. unfold bp_merge, mergeable. destruct (others_dec _ _) as [|n]; [|exfalso; apply n; reflexivity].
  unfold names_eq. cbn [with_names bo_names nl_array nl_id nl orb andb]. apply Nat.eqb_neq in Hij. rewrite Hij.
  assert ((2 <=? length names)%nat = true) as -> by now apply Nat.leb_le. reflexivity.
Qed.
Print Assumptions C66_array_names_merge_raises_refuted.
(** ... with lists, it works exactly for equal lists and options; merging different options raises and changes nothing *)
Theorem C66_merge_needs_equal_options : forall D C T (ops : sk_ops D C T) a b (st st2 : bps D T), nl_array (bo_names a) = false -> nl_array (bo_names b) = false ->
  with_names a (mkN false 0 (nl (bo_names a))) <> with_names b (mkN false 0 (nl (bo_names b))) ->
  bp_merge ops a st b st2 = (st, Err OtherError).
Proof.
  intros * Ha Hb Hne. unfold bp_merge, mergeable. destruct (others_dec a b) as [e|n]; [|reflexivity].
  unfold names_eq. rewrite Ha, Hb. cbn [orb]. destruct (list_eq_dec Z.eq_dec (nl (bo_names a)) (nl (bo_names b))) as [En|Nn]; [|reflexivity].
  exfalso. apply Hne. rewrite <- e, <- En. reflexivity.
Qed.
Print Assumptions C66_merge_needs_equal_options.

(** ** A small instance: the data are the list of values added (a value < 0 is rejected), the table is that list *)
Definition ex_ops : sk_ops (list Z) (list Z) (list Z) :=
  mkOps _ _ _ (fun _ => []) (fun d c => if existsb (fun x => x <? 0) c then Err ValueError else Ok (d ++ c)) (fun a b => Ok (a ++ b)) (fun _ d => Ok d).
Definition ex_o (names : list name) : bp_opts := mkBO (mkN false 0 names) [] 20 None None None None None false [] None None [].
(** A merge that raises has already merged the variables before the failing one: in a process whose batches lack the second
    variable, repeating the merge after its data have been added counts the records of the first variable twice. *)
Theorem C66_failed_merge_not_atomic_refuted : exists (o : bp_opts) (st st2 : bps (list Z) (list Z)) cols,
  exec ex_ops o (HAdd HNew [(1, [10])] 1) = Ok st /\ exec ex_ops o (HAdd HNew [(1, [20]); (2, [21])] 1) = Ok st2 /\
  snd (bp_merge ex_ops o st o st2) = Err OtherError /\
  let '(st', r1) := bp_add ex_ops o (fst (bp_merge ex_ops o st o st2)) cols 1 in
  let '(st'', r2) := bp_merge ex_ops o st' o st2 in
  cols = [(2, [11])] /\ r1 = Ok tt /\ r2 = Ok tt /\
  option_map k_data (dget (bs_vars st'') 1) = Some (Some [10; 20; 20]) /\ option_map k_data (dget (bs_vars st'') 2) = Some (Some [11; 21]).
Proof. exists (ex_o [1; 2]). do 2 eexists. exists [(2, [11])]. split; [reflexivity|]. split; [reflexivity|]. split; [reflexivity|]. repeat split. Qed.
Print Assumptions C66_failed_merge_not_atomic_refuted.
(** A column that raises leaves the columns before it added, while the number of samples and of batches is unchanged: adding the
    corrected batch counts them twice. *)
Theorem C66_failed_add_not_atomic_refuted : exists (o : bp_opts),
  let '(st, r) := bp_add ex_ops o bp_init [(1, [10]); (2, [-1])] 1 in
  let '(st', r') := bp_add ex_ops o st [(1, [10]); (2, [1])] 1 in
  r = Err ValueError /\ bs_nsamples st = 0 /\ bs_nadd st = 0 /\ option_map k_data (dget (bs_vars st) 1) = Some (Some [10]) /\
  r' = Ok tt /\ bs_nsamples st' = 1 /\ option_map k_data (dget (bs_vars st') 1) = Some (Some [10; 10]).
Proof. exists (ex_o [1; 2]). repeat split. Qed.
Print Assumptions C66_failed_add_not_atomic_refuted.

(** ** transform *)
Theorem C66_transform_needs_solve : forall D T A X Y (tr : T -> targs A -> X -> Y) params o (st : bps D T) has a rows,
  bs_solved st = false -> bp_transform tr params o st has a rows = Err NotFitted.
Proof. intros * H. unfold bp_transform. now rewrite H. Qed.
Print Assumptions C66_transform_needs_solve.
(** the documented metrics "indices" and "bins" are rejected *)
Theorem C66_transform_indices_bins_raise_refuted : forall D T A X Y (tr : T -> targs A -> X -> Y) params o (st : bps D T) has sp mi rows m,
  bs_solved st = true -> m = MetIndices \/ m = MetBins -> bp_transform tr params o st has (mkA (Some m) sp mi) rows = Err ValueError.
Proof. intros * H [-> | ->]; unfold bp_transform; rewrite H; reflexivity. Qed.
Print Assumptions C66_transform_indices_bins_raise_refuted.
(** transform raises when a column of X is missing *)
Theorem C66_transform_missing_column : forall D C T (ops : sk_ops D C T) A X Y (tr : T -> targs A -> X -> Y) params o h st has a rows v,
  NoDup (nl (bo_names o)) -> frames_ok h -> exec ops o (HSolve h) = Ok st -> In v (nl (bo_names o)) -> has v = false ->
  bp_transform tr params o st has a rows = Err ValueError.
Proof.
  intros * ND HF HE Hv Hn. pose proof HE as HE2. destruct (C66_solved _ _ _ ops o h st ND HF HE) as (S1 & S2 & _). unfold bp_transform. rewrite S1, S2. cbn [negb].
  destruct (ta_metric a) as [[| |m]|]; try reflexivity.
  assert (any (bs_support st) = true) as ->.
  { clear -S2 Hv. destruct (any (bs_support st)) eqn:E; [reflexivity|exfalso]. revert S2. generalize (nl (bo_names o)) at 1. intros l S2.
    assert (forall s (l0 : list name), any s = false -> select s l0 = []) as K.
    { clear. induction s as [|b s IH]; intros [|x l]; cbn; try reflexivity. unfold any. cbn. destruct b; [discriminate|]. cbn. intros H. now apply IH. }
    rewrite K in S2 by exact E. rewrite <- S2 in Hv. destruct Hv. }
  destruct (forallb has _) eqn:E; [|reflexivity]. rewrite forallb_forall in E. rewrite E in Hn by exact Hv. discriminate.
Qed.
Print Assumptions C66_transform_missing_column.
(** Without entries for metric_special and metric_missing in binning_transform_params, the cell of each record and variable is the
    transform by the table that the variable's own sketch computed, with the call's arguments (and the variable's own metric). *)
Theorem C66_transform_partial : forall D C T (ops : sk_ops D C T) A X Y (tr : T -> targs A -> X -> Y) params o h st has m sp mi rows,
  NoDup (nl (bo_names o)) -> nl (bo_names o) <> [] -> frames_ok h -> exec ops o (HSolve h) = Ok st ->
  (forall v, In v (nl (bo_names o)) -> has v = true /\ tp_special (params_fun params v) = None /\ tp_missing (params_fun params v) = None /\
     tp_metric (params_fun params v) <> Some (Some MetBins)) ->
  exists out, bp_transform tr params o st has (mkA (Some (MetNumeric m)) sp mi) rows = Ok out /\ length out = length rows /\
    forall i row, nth_error rows i = Some row -> exists ys, nth_error out i = Some ys /\
      Forall2 (fun v y => exists k d t, live ops (opts_for o v) (seen_by v h) = Ok k /\ k_data k = Some d /\ d_solve ops (opts_for o v) d = Ok t /\
         y = tr t (mkA (oget (tp_metric (params_fun params v)) (Some (MetNumeric m))) sp mi) (row v)) (nl (bo_names o)) ys.
Proof.
  intros * ND NE HF HE HP. destruct (C66_solved _ _ _ ops o h st ND HF HE) as (S1 & S2 & S3). unfold bp_transform. rewrite S1, S2. cbn [negb ta_metric].
  assert (any (bs_support st) = true) as ->.
  { clear -S2 NE. destruct (any (bs_support st)) eqn:E; [reflexivity|exfalso].
    assert (forall s (l0 : list name), any s = false -> select s l0 = []) as K.
    { clear. induction s as [|b s IH]; intros [|x l]; cbn; try reflexivity. unfold any. cbn. destruct b; [discriminate|]. cbn. intros H. now apply IH. }
    rewrite K in S2 by exact E. congruence. }
  cbn [negb]. assert (forallb has (nl (bo_names o)) = true) as -> by (rewrite forallb_forall; intros v Hv; now apply HP).
  set (Cell := fun (row : name -> X) v y => exists k d t, live ops (opts_for o v) (seen_by v h) = Ok k /\ k_data k = Some d /\ d_solve ops (opts_for o v) d = Ok t /\
         y = tr t (mkA (oget (tp_metric (params_fun params v)) (Some (MetNumeric m))) sp mi) (row v)).
  assert (R : forall row l, (forall v, In v l -> In v (nl (bo_names o))) ->
    exists ys, transform_loop tr (params_fun params) (bs_vars st) row l (mkA (Some (MetNumeric m)) sp mi) = Ok ys /\ Forall2 (Cell row) l ys).
  { intros row. induction l as [|v l IH]; intros Hl; cbn [transform_loop]; [eexists; split; [reflexivity|constructor]|].
    destruct (HP v (Hl v (or_introl eq_refl))) as (_ & P1 & P2 & P3). destruct (S3 v (Hl v (or_introl eq_refl))) as (k & d & t & L1 & L2 & L3 & L4).
    destruct (dget (bs_vars st) v) as [[a b c [t'|]]|]; cbn in L4; try discriminate. injection L4 as ->.
    cbn [ta_metric ta_special ta_missing]. rewrite P1, P2. cbn [oget]. destruct IH as (ys & E & F); [intros w Hw; apply Hl; now right|]. rewrite E. cbn [rbind].
    exists (tr t (mkA (oget (tp_metric (params_fun params v)) (Some (MetNumeric m))) sp mi) (row v) :: ys). split.
    - destruct (tp_metric (params_fun params v)) as [[[| |z]|]|]; cbn [oget]; try reflexivity. congruence.
    - constructor; [|exact F]. exists k, d, t. auto. }
  induction rows as [|row rows IH]; [exists []; split; [reflexivity|]; split; [reflexivity|]; intros [|i] row H; discriminate|].
  destruct IH as (out & E & EL & EI). cbn [fold_right]. destruct (R row _ (fun v H => H)) as (ys & Ey & Fy). rewrite Ey. cbn [rbind]. rewrite E. cbn [rbind].
  exists (ys :: out). split; [reflexivity|]. split; [cbn; now rewrite EL|]. intros [|i] row2 H; cbn in H |- *; [injection H as <-; eauto|now apply EI].
Qed.
Print Assumptions C66_transform_partial.

(** The entry of a variable for metric_missing is used for the variables after it, which have none; its entry for metric is not. *)
Definition ex_tr (t : list Z) (a : targs Z) (x : Z) : (option met * Z * Z)%type := (ta_metric a, ta_special a, ta_missing a).
Theorem C66_transform_params_leak_refuted : exists (o : bp_opts) (st : bps (list Z) (list Z)) (ps : name -> tparams Z),
  exec ex_ops o (HSolve (HAdd HNew [(1, [10]); (2, [20])] 1)) = Ok st /\ ps 2 = no_params /\
  bp_transform ex_tr (Some ps) o st (fun _ => true) (mkA (Some (MetNumeric 0)) 0 0) [fun _ => 5] =
    Ok [[(Some (MetNumeric 1), 8, 9); (Some (MetNumeric 0), 8, 9)]].
Proof.
  exists (ex_o [1; 2]). eexists. exists (fun v => if v =? 1 then mkT (Some (Some (MetNumeric 1))) (Some 8) (Some 9) else no_params).
  split; [reflexivity|]. split; reflexivity.
Qed.
Print Assumptions C66_transform_params_leak_refuted.

(** The hypotheses can be met: two variables, a batch without variable 2, columns in different orders, a merge, two solves. *)
Definition ex_h : hist (list Z) :=
  HSolve (HMerge (HAdd (HSolve (HAdd HNew [(1, [10; 11]); (2, [20; 21])] 2)) [(2, [22]); (7, [70])] 1)
                 (HAdd HNew [(2, [23; 24]); (1, [13; 14])] 2)).
Example C66_hyps_met : NoDup (nl (bo_names (ex_o [1; 2]))) /\ nl (bo_names (ex_o [1; 2])) <> [] /\ bo_criteria (ex_o [1; 2]) = None /\
  frames_ok ex_h /\ rows_ok ex_h /\ exists st, exec ex_ops (ex_o [1; 2]) ex_h = Ok st /\ bs_started st = true /\
  option_map k_table (dget (bs_vars st) 1) = Some (Some [10; 11; 13; 14]) /\
  option_map k_table (dget (bs_vars st) 2) = Some (Some [20; 21; 22; 23; 24]) /\ bs_nsamples st = 3 /\ all_rows ex_h = 5.
Proof.
  split; [repeat constructor; cbn; intuition discriminate|]. split; [discriminate|]. split; [reflexivity|].
  split. { cbn. repeat split; repeat constructor; cbn; intuition discriminate. }
  split. { cbn. repeat split; lia. }
  eexists. split; [reflexivity|]. repeat split.
Qed.
