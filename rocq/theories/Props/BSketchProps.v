(** C34: merging binning sketches (numerical: BSketch; categorical: BCatSketch). *)
From Coq Require Import List ZArith Bool QArith Lia Permutation.
From Verif Require Import Model.Arr Model.GK Model.BSketch Spec.GKSpec Spec.BSketchSpec
  Proofs.GKP Proofs.GKI Proofs.GKFinal Proofs.BSketchP Proofs.BCatP.
Import ListNotations.
Open Scope Z_scope.

(** What the API reports about numerical sketch k of a store: it holds the records l. *)
Definition reports (w : world) (k : nat) (l : list (rec_ Z)) : Prop :=
  b_n_event w k = Some (events l) /\ b_n_nonevent w k = Some (nonevents l) /\
  exists b, nth_error (objs w) k = Some b /\
    me b = missing_of true l /\ mne b = missing_of false l /\ se b = special_of true l /\ sne b = special_of false l.
Definition creports (w : cworld) (k : nat) (l : list (rec_ Z)) : Prop :=
  c_n_event w k = Some (events l) /\ c_n_nonevent w k = Some (nonevents l) /\
  (exists b, nth_error (cobjs w) k = Some b /\
    cme b = missing_of true l /\ cmne b = missing_of false l /\ cse b = special_of true l /\ csne b = special_of false l) /\
  exists ks, NoDup ks /\ (forall c y, 0 < in_cat c y l -> In c ks) /\
    c_table w k = Some (map (fun c => (c, (in_cat c false l, in_cat c true l))) ks).

Lemma good_reports e w k b l : nth_error (objs w) k = Some b -> good e (heap w) b l -> reports w k l.
Proof.
  intros E G. destruct (good_counts _ _ _ _ _ E G) as [A B]. split; [assumption|]. split; [assumption|].
  exists b. destruct G as (_ & _ & _ & M1 & M2 & M3 & M4). auto.
Qed.

(** Distributed reductions (each sketch is merged away at most once and not used afterwards), where a sketch
    taking part in a merge holds at least one clean record or nothing at all: nothing fails and every surviving
    sketch reports exactly the records added to it and merged into it.
    Missing for the full claim: sketches with only missing / special records and re-use after a merge; see the
    refutations below. *)
Theorem C34_reduction_counts_partial : forall eps p, linear p -> merges_clean p ->
  exists w, run eps p = Ok w /\ forall k, alive p k -> reports w k (held p k).
Proof.
  intros e p L M. destruct (exec_linear e p (mkW [] []) [] []) as (w & E & B).
  - apply binv_empty. cbn. lia.
  - exact L.
  - exact M.
  - exists w. split; [exact E|]. intros k A. destruct (obj_ex _ _ _ _ _ B A) as (b & Eb).
    apply (good_reports e _ _ b); [assumption|]. apply (bi_good _ _ _ _ B k b A Eb).
Qed.
Print Assumptions C34_reduction_counts_partial.

(** Any program (re-use of sketches allowed, any number of merges) in which the receiver of each merge already
    holds a clean record: all sketches are exact at the end, so no later update of one reached another. *)
Theorem C34_no_interference_partial : forall eps p, merges_nonempty p ->
  exists w, run eps p = Ok w /\ forall k, (k < length (recs p))%nat -> reports w k (held p k).
Proof.
  intros e p M. destruct (exec_nonempty e p (mkW [] []) []) as (w & E & B).
  - apply binv_empty. cbn. lia.
  - exact M.
  - exists w. split; [exact E|]. intros k A. destruct (obj_ex _ _ _ _ _ B A) as (b & Eb).
    apply (good_reports e _ _ b); [assumption|]. apply (bi_good _ _ _ _ B k b A Eb).
Qed.
Print Assumptions C34_no_interference_partial.

(** Order of merging does not matter for what is reported. *)
Lemma countb_perm {A} (f : A -> bool) l l' : Permutation l l' -> countb f l = countb f l'.
Proof.
  intros P. unfold countb. f_equal. induction P as [|x l l' P IH|x y l|l l' l'' P IH P' IH']; cbn [filter].
  - reflexivity.
  - destruct (f x); cbn [length]; auto.
  - destruct (f x), (f y); reflexivity.
  - now rewrite IH.
Qed.
Theorem C34_order_independent_partial : forall eps p p' k k', linear p -> merges_clean p -> linear p' -> merges_clean p' ->
  alive p k -> alive p' k' -> Permutation (held p k) (held p' k') ->
  exists w w', run eps p = Ok w /\ run eps p' = Ok w' /\
    b_n_event w k = b_n_event w' k' /\ b_n_nonevent w k = b_n_nonevent w' k' /\ reports w k (held p' k').
Proof.
  intros e p p' k k' L M L' M' A A' P.
  destruct (C34_reduction_counts_partial e p L M) as (w & E & R).
  destruct (C34_reduction_counts_partial e p' L' M') as (w' & E' & R').
  exists w, w'. destruct (R k A) as (R1 & R2 & b & R3 & R4 & R5 & R6 & R7). destruct (R' k' A') as (S1 & S2 & _).
  split; [assumption|]. split; [assumption|].
  assert (EV : events (held p k) = events (held p' k')) by now apply countb_perm.
  assert (NE : nonevents (held p k) = nonevents (held p' k')) by now apply countb_perm.
  split; [congruence|]. split; [congruence|]. split; [congruence|]. split; [congruence|].
  exists b. rewrite R4, R5, R6, R7. repeat split; try assumption; apply countb_perm; assumption.
Qed.
Print Assumptions C34_order_independent_partial.

(** Categorical sketches, in any distributed reduction (no condition on the records): every surviving sketch
    reports the exact count of each category, missing and special records.
    Missing for the full claim: re-use after a merge, refuted below. *)
Theorem C34_categorical_reduction_partial : forall p, linear p ->
  exists w, crun p = Ok w /\ forall k, alive p k -> creports w k (held p k).
Proof.
  intros p L. destruct (cexec_linear p (mkCW [] []) [] []) as (w & E & B).
  - constructor; cbn [cobjs cheap length]; try reflexivity; intros; lia.
  - exact L.
  - exists w. split; [exact E|]. intros k A. destruct (cobj_ex _ _ _ _ B A) as (b & Eb).
    pose proof (ci_good _ _ _ B k b A Eb) as G. fold (recs p) in G.
    destruct (cgood_counts _ _ _ _ Eb G) as (ks & N & C & T & Ev & Ne).
    split; [exact Ev|]. split; [exact Ne|]. split.
    + exists b. destruct G as (_ & M1 & M2 & M3 & M4). auto.
    + exists ks. auto.
Qed.
Print Assumptions C34_categorical_reduction_partial.

Definition r1 (v : Z) (y : bool) : rec_ Z := mkRec (Clean v) y.
Definition rm (y : bool) : rec_ Z := mkRec Missing y.
Definition rs (y : bool) : rec_ Z := mkRec Special y.

Example C34_hyps_met :
  let p := [ONew; ONew; ONew; OAdd 0 [r1 1 true; rm false; rs true]; OAdd 1 [r1 5 false; r1 7 true; rm true];
            OMerge 2 0; OMerge 1 2; OAdd 1 [r1 9 true]] in
  linear p /\ merges_clean p /\ alive p 1 /\ events (held p 1) = 5 /\ nonevents (held p 1) = 2.
Proof.
  cbv zeta. repeat split; try (cbn; lia); try (cbn; intuition lia).
  - now left.
  - right. exists (r1 1 true), 1. cbn. auto.
  - right. exists (r1 5 false), 5. cbn. auto.
  - right. exists (r1 1 true), 1. cbn. auto.
Qed.
Example C34_hyps_met_reuse :
  let p := [ONew; ONew; OAdd 0 [r1 1 true; rm false; rs true]; OAdd 1 [r1 5 false; r1 7 true; rm true];
            OMerge 0 1; OAdd 1 [r1 9 true]; OAdd 0 [rm true]; OMerge 1 0] in
  merges_nonempty p /\ events (held p 0) = 5 /\ events (held p 1) = 8.
Proof.
  cbv zeta. repeat split; try (cbn; lia).
  - exists (r1 1 true), 1. cbn. auto.
  - right. exists (r1 5 false), 5. cbn. auto.
  - exists (r1 5 false), 5. cbn. auto.
  - right. exists (r1 1 true), 1. cbn. auto.
Qed.

(** Merging a sketch that only received missing (or special) records loses them (bsketch.py:187-188). *)
Theorem C34_missing_only_lost_refuted : exists eps p w, linear p /\ run eps p = Ok w /\
  alive p 0 /\ held p 0 = [r1 1 true; rm true; rm false] /\ b_n_event w 0 = Some 1 /\ b_n_nonevent w 0 = Some 0.
Proof.
  exists (1#10), [ONew; ONew; OAdd 0 [r1 1 true]; OAdd 1 [rm true; rm false]; OMerge 0 1]. eexists.
  repeat split; try (cbn; intuition lia).
Qed.
Print Assumptions C34_missing_only_lost_refuted.

(** Merging into a sketch that only received missing (or special) records forgets them (190-192). *)
Theorem C34_missing_only_overwritten_refuted : exists eps p w, linear p /\ run eps p = Ok w /\
  alive p 0 /\ held p 0 = [rm true; rs false; r1 1 true] /\ b_n_event w 0 = Some 1 /\ b_n_nonevent w 0 = Some 0.
Proof.
  exists (1#10), [ONew; ONew; OAdd 0 [rm true; rs false]; OAdd 1 [r1 1 true]; OMerge 0 1]. eexists.
  repeat split; try (cbn; intuition lia).
Qed.
Print Assumptions C34_missing_only_overwritten_refuted.

(** After merging into an empty sketch the two share their quantile sketches: adding records to the one
    changes the counts of the other. *)
Theorem C34_aliasing_refuted : exists eps p l w w', run eps p = Ok w /\ run eps (p ++ [OAdd 0 l]) = Ok w' /\
  held (p ++ [OAdd 0 l]) 1 = held p 1 /\ b_n_event w 1 = Some 1 /\ b_n_event w' 1 = Some 3.
Proof.
  exists (1#10), [ONew; ONew; OAdd 1 [r1 1 true]; OMerge 0 1], [r1 2 true; r1 3 true]. eexists. eexists.
  split; [vm_compute; reflexivity|]. split; [vm_compute; reflexivity|]. repeat split.
Qed.
Print Assumptions C34_aliasing_refuted.

(** The same for categories that the receiver had not seen. *)
Theorem C34_categorical_aliasing_refuted : exists p l w w', crun p = Ok w /\ crun (p ++ [OAdd 0 l]) = Ok w' /\
  held (p ++ [OAdd 0 l]) 1 = held p 1 /\ c_n_event w 1 = Some 1 /\ c_n_event w' 1 = Some 2.
Proof.
  exists [ONew; ONew; OAdd 0 [r1 8 false]; OAdd 1 [r1 1 true]; OMerge 0 1], [r1 1 true]. eexists. eexists.
  split; [vm_compute; reflexivity|]. split; [vm_compute; reflexivity|]. repeat split.
Qed.
Print Assumptions C34_categorical_aliasing_refuted.
