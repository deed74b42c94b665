(** C81: OptimalBinningSketch as an object, over all histories of add, merge and solve. *)
From Coq Require Import List ZArith Bool QArith Lia Permutation.
From Verif Require Import Model.Arr Model.Core Model.GK Model.BSketch Model.OptSketch Model.SketchLife Spec.CoreSpec Spec.GKSpec
  Spec.BSketchSpec Spec.OptSketchSpec Spec.SketchLifeSpec Proofs.ArrP Proofs.FitP Proofs.GKI Proofs.BSketchP Proofs.OptSketchP
  Proofs.OptSketchFinal Proofs.SketchLifeP Proofs.SketchLifeQ Props.OptSketchProps.
Import ListNotations.
Open Scope Z_scope.

(** [splits] / [transform] and the binning table always agree and are those of the last solve that did not raise:
    adding, merging, and a solve that raises do not change them; without such a solve they raise. *)
Theorem C81_answers_of_the_last_solve : forall e d solver m h, opt_ok solver -> clean_merges h ->
  match last_good e d solver m h with
  | None => n_fitted (object e d solver m h) = Err NotFitted /\ n_table (object e d solver m h) = Err NotFitted
  | Some h' => exists a, n_fitted (object e d solver m (SSolve h')) = Ok a /\
      n_fitted (object e d solver m h) = Ok a /\ n_table (object e d solver m h) = Ok a
  end.
Proof.
  intros e d solver m h Ho C. pose proof (published e d solver m h Ho C) as P. unfold n_fitted, n_table.
  destruct (last_good e d solver m h) as [h'|]; [|rewrite P; auto].
  destruct P as (P1 & P2 & P3 & P4 & P5 & P6 & _).
  destruct (solve_good e d solver m h' P6 P5) as (b & f & fl & _ & _ & _ & _ & S1 & S2 & S3 & S4 & _).
  cbv zeta in *. rewrite P1, P2, P3, P4, S1, S2, S3, S4. eauto.
Qed.
Print Assumptions C81_answers_of_the_last_solve.

(** Whatever the interleaving of the calls, the answer is the binning [sk_solve] computes (C54, C55) from exactly the
    records known at that solve. Up to each split, the cumulated rows are within the rank error of the sketch, and
    all rows together count every record once.
    Missing for the full claim: lossy merges (C33) and no split left with missing or special records (C54). *)
Theorem C81_rows_count_the_records_partial : forall e d solver m h h' splits nev ev, (0 < e)%Q -> opt_ok solver ->
  clean_merges h -> small_merges e h' -> last_good e d solver m h = Some h' ->
  n_table (object e d solver m h) = Ok (splits, (nev, ev)) -> splits <> [] ->
  let l := records h' in
  zsum ev = events l /\ zsum nev = nonevents l /\
  length ev = (length splits + 3)%nat /\ length nev = (length splits + 3)%nat /\ nondecreasing splits /\
  forall k x, nth_error splits k = Some x ->
    upto x (values_of true l) - slack e (Z.of_nat (length (values_of true l))) <= zsum (firstn (S k) ev) <= upto x (values_of true l) /\
    upto x (values_of false l) - slack e (Z.of_nat (length (values_of false l))) <= zsum (firstn (S k) nev) <= upto x (values_of false l).
Proof.
  intros e d solver m h h' splits nev ev_ He Ho C Sm Lg T Ne. pose proof (published e d solver m h Ho C) as P. rewrite Lg in P.
  destruct P as (P1 & P2 & P3 & P4 & P5 & P6 & P7).
  destruct (solve_good e d solver m h' P6 P5) as (b & f & fl & D & _ & K & _ & S1 & S2 & S3 & S4 & _). cbv zeta in *.
  unfold n_table in T. rewrite P1, P4, S4 in T. injection T as <- <- <-.
  pose proof (obj_data e d solver m h' P6) as H. rewrite D in H. destruct H as (he & hne & -> & Q1 & Q2 & L). destruct (L He Sm) as [L1 L2].
  assert (Pf : sf_prebins f <> []).
  { intros E. apply Ne. revert K E. unfold sk_solve. destruct (merge_sketches _) as [[g b]|]; [|discriminate]. cbn [rbind fst snd].
    destruct (quantiles _ _) as [[ss g']|]; [|discriminate]. cbn [rbind fst snd].
    destruct (sk_prebins _ _ _ _) as [[[[sp n1] n2]|]|]; try discriminate. cbn [rbind fst snd]. unfold sk_finish. cbv zeta.
    destruct (bin_info_1 _ _ _ _ _ _); [|discriminate]. destruct (bin_info_1 _ _ _ _ _ _); [|discriminate]. intros [= <-]. cbn [sf_prebins sf_splits].
    intros ->. unfold optimal_splits. destruct (_ <=? _)%nat; [reflexivity|]. now destruct (init _). }
  pose proof (pure_solver_ok solver fl (bd_n (sketch_of e he hne (missing_of true (records h')) (missing_of false (records h'))
    (special_of true (records h')) (special_of false (records h')))) Ho) as So.
  destruct (C54_table_totals_partial _ _ _ _ _ _ _ _ _ _ _ He L1 L2 So K Pf) as [T1 T2].
  destruct (C55_cumulated_counts_accurate _ _ _ _ _ _ _ _ _ _ _ He L1 L2 So K Pf) as (A1 & A2 & A3 & A4).
  assert (U : forall x v w, Permutation v w -> upto x v = upto x w).
  { intros x v w Pm. exact (countb_perm (fun y => Z.leb y x) v w Pm). }
  assert (EV : countb (fun r => Bool.eqb (ry r) true) (records h') = events (records h'))
    by (apply countb_ext; intros r; destruct (ry r); reflexivity).
  assert (NE : countb (fun r => Bool.eqb (ry r) false) (records h') = nonevents (records h'))
    by (apply countb_ext; intros r; destruct (ry r); reflexivity).
  split; [|split].
  - rewrite T1. unfold nvals. rewrite (Permutation_length Q1), clean_len, EV. lia.
  - rewrite T2. unfold nvals. rewrite (Permutation_length Q2), clean_len, NE. lia.
  - split; [assumption|]. split; [assumption|]. split; [assumption|]. intros k x Ex. specialize (A4 k x Ex).
    unfold nvals in A4. rewrite (Permutation_length Q1), (Permutation_length Q2), (U x _ _ Q1), (U x _ _ Q2) in A4. exact A4.
Qed.
Print Assumptions C81_rows_count_the_records_partial.

(** The streaming statistics have one entry per solve that did not raise, numbered from 1, with the number of
    accepted [add] calls and of records known at that solve. *)
Theorem C81_statistics : forall e d solver m h, opt_ok solver -> clean_merges h ->
  let g := good_solves e d solver m h in
  o_stats (object e d solver m h) =
    combine (rev (seq 1 (length g))) (map (fun h' => (own_adds h', Z.of_nat (length (records h')))) g).
Proof. intros e d solver m h Ho C. apply (stats_obj e d solver m h Ho C). Qed.
Print Assumptions C81_statistics.

(** As long as the sketches are exact (eps (n - 1) < 1 for all the records together), a solve depends on the multiset of
    the records only: not on the order of the records, how they are cut into add calls and merged objects, nor on
    earlier solves. *)
Theorem C81_exact_sketches_forget_the_history : forall e d solver m h1 h2, (0 < e)%Q -> refines d = true -> opt_ok solver ->
  clean_merges h1 -> clean_merges h2 -> own_adds h1 <> 0%nat -> own_adds h2 <> 0%nat ->
  Permutation (records h1) (records h2) -> few e (records h1) ->
  outcome e d solver m (SSolve h1) = outcome e d solver m (SSolve h2) /\
  (outcome e d solver m (SSolve h1) = Ok tt ->
   n_fitted (object e d solver m (SSolve h1)) = n_fitted (object e d solver m (SSolve h2)) /\
   n_table (object e d solver m (SSolve h1)) = n_table (object e d solver m (SSolve h2))).
Proof.
  intros e d solver m h1 h2 He R Ho C1 C2 A1 A2 P F.
  pose proof (obj_data e d solver m h1 C1) as D1. pose proof (obj_data e d solver m h2 C2) as D2.
  destruct (o_data (object e d solver m h1)) as [b1|] eqn:E1; [|destruct D1; contradiction].
  destruct (o_data (object e d solver m h2)) as [b2|] eqn:E2; [|destruct D2; contradiction].
  assert (F2 : few e (records h2)) by (unfold few in *; rewrite <- (Permutation_length P); exact F).
  destruct (solve_same e d solver m _ _ _ _ _ _ b1 b2 He R E1 E2 ltac:(now rewrite obj_adds) ltac:(now rewrite obj_adds)
    (flag_false _ _ _ _ _ R) (flag_false _ _ _ _ _ R) D1 D2 (few_small e He h1 F) (few_small e He h2 F2) P F) as [S1 S2].
  unfold outcome, object in *. cbn [run_obj]. split; [exact S1|]. intros Ok1. specialize (S2 Ok1). cbv zeta in S2.
  destruct S2 as (T1 & T2 & T3 & T4 & T5). unfold n_fitted, n_table. rewrite T1, T2, T3, T4, T5. auto.
Qed.
Print Assumptions C81_exact_sketches_forget_the_history.

(** Without the exactness hypothesis it is false, already for solving twice in a row: computing the bins compresses the
    sketches again, which moves the quantiles the next solve starts from. *)
Definition keep : opt_solver := fun _ _ a _ => Ok (map (fun _ => true) a).
Lemma keep_ok : opt_ok keep.
Proof. intros f n a b sol L G [= <-]. apply (keep_all_ok a b L G). Qed.
Definition r (v : Z) (y : bool) : rec_ Z := mkRec (Clean v) y.
Definition four := SAdd SNew (Some [r 9 true; r 1 false; r 1 true; r 7 false]).
Theorem C81_solving_twice_changes_the_binning_refuted :
  n_fitted (object (1#3) IV keep 3 (SSolve four)) = Ok ([1], ([1; 1; 0; 0], [1; 1; 0; 0])) /\
  n_fitted (object (1#3) IV keep 3 (SSolve (SSolve four))) = Ok ([], ([2; 0; 0], [2; 0; 0])).
Proof. split; vm_compute; reflexivity. Qed.
Print Assumptions C81_solving_twice_changes_the_binning_refuted.

(** [merge] does not count as adding data: records that only came from merges cannot be solved. *)
Theorem C81_solve_needs_an_own_add : forall e d solver m h, own_adds h = 0%nat ->
  outcome e d solver m (SSolve h) = Err NotFitted.
Proof.
  intros e d solver m h E. unfold outcome. cbn [run_obj]. pose proof (obj_adds e d solver m h) as A. unfold object in A.
  unfold n_solve. rewrite A, E. reflexivity.
Qed.
Print Assumptions C81_solve_needs_an_own_add.
(** The first [add] was refused (it still created the sketch), the merge is accepted and brings four records. *)
Theorem C81_merged_records_not_solved_refuted : forall e d solver m,
  outcome e d solver m (SMerge (SAdd SNew None) four) = Ok tt /\
  option_map bd_n (o_data (object e d solver m (SMerge (SAdd SNew None) four))) = Some 4 /\
  outcome e d solver m (SSolve (SMerge (SAdd SNew None) four)) = Err NotFitted.
Proof.
  intros e d solver m. pose proof (obj_data e d solver m four I) as D.
  assert (Cl : has_clean (records four)) by (exists (r 9 true), 9; split; [now left|reflexivity]).
  set (b := bd_add (bd_new e) [r 9 true; r 1 false; r 1 true; r 7 false]) in *.
  change (holds e (records four) (small_merges e four) b) in D.
  destruct D as (he & hne & E & P1 & P2 & _).
  assert (M : bd_merge (bd_new e) b = (b, Ok tt)).
  { unfold bd_merge. rewrite E. unfold sketch_of at 1 2. cbn [bd_e bd_ne]. rewrite (has_clean_count e he hne _ P1 P2 Cl). reflexivity. }
  unfold outcome, object. cbn [run_obj]. unfold n_merge. change (o_data (fst (run_obj e d solver m four))) with (Some b).
  cbn [n_add n_new o_data fst snd set_data]. rewrite M. cbn [fst snd o_data o_adds n_solve option_map]. split; [reflexivity|]. split; [|reflexivity].
  f_equal. rewrite (holds_n e (records four) False); [reflexivity|]. exists he, hne. split; [exact E|]. split; [exact P1|]. split; [exact P2|]. intros _ [].
Qed.
Print Assumptions C81_merged_records_not_solved_refuted.

(** Merging into a new object, or merging a new object, raises. *)
Theorem C81_merge_with_new_object_raises : forall e d solver m h,
  outcome e d solver m (SMerge SNew h) = Err OtherError /\ outcome e d solver m (SMerge h SNew) = Err OtherError.
Proof.
  intros e d solver m h. unfold outcome. cbn [run_obj]. unfold n_merge. cbn [fst n_new o_data snd]. split; [reflexivity|].
  destruct (o_data _); reflexivity.
Qed.
Print Assumptions C81_merge_with_new_object_raises.

(** [information] raises AttributeError after a successful solve that did not need the optimizer. *)
Theorem C81_information_raises_refuted :
  let h := SSolve (SAdd SNew (Some [r 1 true; r 2 false])) in
  outcome (1#100) IV keep 2 h = Ok tt /\ n_information (object (1#100) IV keep 2 h) = Err OtherError.
Proof. split; vm_compute; reflexivity. Qed.
Print Assumptions C81_information_raises_refuted.

(** A history with two solves, a refused add and a merge that meets the hypotheses above. *)
Definition story :=
  SAdd (SSolve (SMerge (SAdd (SSolve (SAdd SNew (Some [r 1 true; r 2 false; r 3 true; r 4 false; r 4 true; r 1 false; mkRec Missing true]))) None)
                       (SAdd SNew (Some [r 2 true; r 3 false; mkRec Special false; r 9 true; r 8 false])))) (Some [r 5 true]).
Example C81_hyps_met : opt_ok keep /\ clean_merges story /\ small_merges (1#100) story /\ few (1#100) (records story) /\
  own_adds story = 2%nat /\ (exists h', last_good (1#100) IV keep 4 story = Some h' /\ length (records h') = 12%nat) /\
  n_table (object (1#100) IV keep 4 story) = Ok ([2; 3; 4], ([2; 1; 1; 1; 1; 0], [2; 1; 1; 1; 0; 1])) /\
  length (good_solves (1#100) IV keep 4 story) = 2%nat.
Proof.
  split; [exact keep_ok|]. split; [refine (conj I (conj I (conj _ _))); [exists (r 1 true), 1|exists (r 2 true), 2]; (split; [now left|reflexivity])|].
  split; [cbn; repeat split|]. split; [reflexivity|]. split; [reflexivity|]. split; [eexists; split; vm_compute; reflexivity|].
  split; vm_compute; reflexivity.
Qed.
(** Same records, other order, one add, no solve before. *)
Example C81_exact_met : Permutation (records story) (records (SAdd SNew (Some (rev (records story))))) /\
  n_fitted (object (1#100) IV keep 4 (SSolve story)) = n_fitted (object (1#100) IV keep 4 (SSolve (SAdd SNew (Some (rev (records story)))))).
Proof. split; [apply Permutation_rev|vm_compute; reflexivity]. Qed.

(** ** dtype "categorical" *)
(** The binning table is that of the last solve that did not raise; [splits] and [transform] follow the last solve
    whether it raised or not. If it did not raise, all agree and are what [cat_solve] (C56) computes from the exact
    counts of the records. *)
Theorem C81_categorical_answers : forall cutoff solver h,
  c_table_obj (cat_object cutoff solver h) =
    match cat_last_good cutoff solver h with
    | None => Err NotFitted
    | Some h' => c_table_obj (cat_object cutoff solver (SSolve h'))
    end /\
  forall h', last_solve h = Some h' -> cat_outcome cutoff solver (SSolve h') = Ok tt ->
    exists b f, cat_solve (pure_cat solver (cd_n_event b + cd_n_nonevent b)) cutoff b = Ok f /\
      c_fitted_obj (cat_object cutoff solver h) = Ok (cs_bins f, (cs_nev f, cs_ev f)) /\
      c_table_obj (cat_object cutoff solver h) = Ok (cs_bins f, (cs_nev f, cs_ev f)) /\
      (made_merges h' -> let l := records h' in
         NoDup (map fst (cd_t b)) /\ (forall k, In k (map fst (cd_t b)) <-> exists x, In x l /\ rk x = Clean k) /\
         (forall k, events_in (cd_t b) [k] = in_cat k true l /\ nonevents_in (cd_t b) [k] = in_cat k false l) /\
         cd_me b = missing_of true l /\ cd_mne b = missing_of false l /\ cd_se b = special_of true l /\ cd_sne b = special_of false l).
Proof.
  intros cutoff solver h. split; [apply cat_table_last|]. intros h' L Ok1.
  pose proof (cat_fitted_last cutoff solver h) as F. rewrite L in F.
  assert (LG : cat_last_good cutoff solver h = Some h').
  { clear F. revert L. induction h as [|h IH c|h IH|h IH o IHo]; cbn [last_solve cat_last_good]; intros L; auto.
    injection L as ->. rewrite Ok1. reflexivity. }
  pose proof (cat_table_last cutoff solver h) as T. rewrite LG in T.
  pose proof (cat_data cutoff solver h') as D.
  unfold cat_outcome, cat_object in *. cbn [run_cat] in *. destruct (c_solve_good cutoff solver _ Ok1) as (b & f & Eb & K & Q1 & Q2).
  cbv zeta in *. rewrite Eb in D. destruct D as [_ D]. exists b, f. split; [exact K|]. rewrite F, T. split; [exact Q1|]. split; [exact Q2|].
  intros M. destruct (D M) as (N & Tt & Kk & M1 & M2 & M3 & M4). split; [assumption|]. split; [assumption|]. split; [|auto].
  intros k. specialize (Tt k). injection Tt as Tn Te. rewrite <- Te, <- Tn. unfold events_in, nonevents_in.
  assert (W : filter (fun r : Z * (Z * Z) => zmem (fst r) [k]) (cd_t b) = filter (fun r : crow => fst r =? k) (cd_t b)).
  { apply filter_ext. intros x. cbn [zmem existsb]. rewrite orb_false_r, Z.eqb_sym. reflexivity. }
  rewrite W. split; reflexivity.
Qed.
Print Assumptions C81_categorical_answers.

(** A solve that raises leaves new categories with old splits: afterwards [splits] (and [transform]) disagree with the
    binning table. Here cat_cutoff = 0.1, and the second batch of records makes the first two categories rare. *)
Definition keep_c : Z -> list Z -> list Z -> res (list bool) := fun _ a _ => Ok (map (fun _ => true) a).
Theorem C81_failed_categorical_solve_refuted :
  let h := SAdd (SSolve (SAdd SNew (Some [r 1 true; r 1 false; r 1 false; r 2 true; r 2 true; r 2 false]))) (Some (repeat (r 3 true) 40)) in
  let before := cat_object (Some (1#10)) keep_c h in
  let after := cat_object (Some (1#10)) keep_c (SSolve h) in
  c_fitted_obj before = Ok ([[1]; [2]], ([2; 1; 0; 0], [1; 2; 0; 0])) /\ c_table_obj before = c_fitted_obj before /\
  cat_outcome (Some (1#10)) keep_c (SSolve h) = Err IndexError /\
  c_table_obj after = c_table_obj before /\ c_fitted_obj after = Ok ([[3]; []; [1; 2]], ([2; 1; 0; 0], [1; 2; 0; 0])).
Proof. cbv zeta. repeat split; vm_compute; reflexivity. Qed.
Print Assumptions C81_failed_categorical_solve_refuted.
Example C81_categorical_met :
  let h := SMerge (SSolve (SAdd SNew (Some [r 1 true; r 1 false; r 1 false; mkRec Missing true]))) (SAdd SNew (Some [r 2 true; r 2 true; r 2 false; r 1 true])) in
  made_merges h /\ cat_outcome None keep_c (SSolve h) = Ok tt /\
  c_fitted_obj (cat_object None keep_c (SSolve h)) = Ok ([[1]; [2]], ([2; 1; 0; 0], [2; 2; 0; 1])).
Proof. cbv zeta. split; [cbn; auto|]. split; vm_compute; reflexivity. Qed.
