(** C56: OptimalBinningSketch.solve on categorical data. *)
From Coq Require Import List ZArith Bool QArith Lia Permutation Sorted.
From Verif Require Import Model.Arr Model.Core Model.GK Model.BSketch Model.OptSketch Spec.CoreSpec
  Spec.OptSketchSpec Proofs.ArrP Proofs.CoreP Proofs.FitP Proofs.CoreFinal Proofs.CatP Proofs.OptSketchFinal Proofs.OptSketchCat.
Import ListNotations.
Open Scope Z_scope.

Lemma map_seq_nth {B} (f : nat -> B) k n : (k < n)%nat -> nth_error (map f (seq 0 n)) k = Some (f k).
Proof. intros L. rewrite (map_nth_error f k (seq 0 n) (d := k)); [reflexivity|]. rewrite (nth_error_nth' _ 0%nat) by (now rewrite seq_length). now rewrite seq_nth. Qed.

Lemma cat_solve_spec solver cutoff b f : solver_ok solver -> NoDup (map fst (cd_t b)) ->
  cat_solve solver cutoff b = Ok f -> cs_prebins f <> [] -> (cs_rounds f <= 1)%nat ->
  exists R O, Permutation (cd_t b) (R ++ O) /\ O = match cutoff with None => [] | Some c => filter (rare c (cd_n_event b + cd_n_nonevent b)) (cd_t b) end /\
    nondecreasing (cs_splits f) /\
    cs_bins f = cat_groups (cs_splits f) (map fst R) (map fst O) /\
    cs_nev f = regroup (cs_splits f) (map r_ne R) ++ match O with [] => [] | _ => [zsum (map r_ne O)] end ++ [cd_sne b; cd_mne b] /\
    cs_ev f = regroup (cs_splits f) (map r_e R) ++ match O with [] => [] | _ => [zsum (map r_e O)] end ++ [cd_se b; cd_me b].
Proof.
  intros So N E Ne Rd. unfold cat_solve in E. cbv zeta in E.
  set (n := cd_n_event b + cd_n_nonevent b) in *.
  pose proof (cat_bins_split cutoff n (cd_t b) N) as (O1 & O2 & O3). set (cb := cat_bins cutoff n (cd_t b)) in *.
  set (O := match cutoff with None => [] | Some c => filter (rare c n) (cd_t b) end) in *.
  exists (cb_rows cb), O. split; [assumption|]. split; [reflexivity|].
  set (R := cb_rows cb) in *.
  assert (NeR : R <> []).
  { intros X. rewrite X in E. cbn in E. injection E as <-. cbn in Ne. congruence. }
  rewrite !map_length in E. fold (positions 0 (length R - 1)) in E.
  destruct (cat_prebins _ _ _ _ _) as [[[[[splits nev] ev_] rounds]|]|] eqn:Ep; try discriminate. cbn [rbind] in E.
  assert (Eqs : cs_prebins f = splits /\ cs_rounds f = rounds).
  { destruct (bin_info_1 _ _ _ _ _ _); [|discriminate]. destruct (bin_info_1 _ _ _ _ _ _); [|discriminate]. injection E as <-. auto. }
  destruct Eqs as [E1 E2]. rewrite E1 in Ne. rewrite E2 in Rd.
  destruct (cat_prebins_spec (S (length (seq 0 (length R - 1)))) (map r_ne R) (map r_e R) splits nev ev_ rounds) as (Ns & Hn & He).
  { intros X. apply NeR. destruct R; [reflexivity|discriminate]. }
  { now rewrite !map_length. }
  { rewrite map_length. exact Ep. }
  { exact Rd. }
  subst nev ev_.
  rewrite regroup_length in E. destruct splits as [|s0 ss] eqn:Es; [congruence|]. rewrite <- Es in *.
  assert (Ln : (S (length splits) <=? 1)%nat = false) by (apply Nat.leb_gt; rewrite Es; cbn; lia). rewrite Ln in E.
  destruct (So (regroup splits (map r_ne R)) (regroup splits (map r_e R))) as [S1 S2];
    [now rewrite !regroup_length|rewrite regroup_length, Es; cbn; lia|].
  set (sol := solver _ _) in *. rewrite regroup_length in S1.
  unfold optimal_splits in E. rewrite Ln in E.
  unfold bin_info_1 in E. destruct sol as [|b0 sol'] eqn:Esol; [cbn in S1; lia|]. rewrite <- Esol in *.
  rewrite !regroup_merge in E by assumption.
  cbn [option_map] in E. injection E as <-. cbn [cs_splits cs_bins cs_nev cs_ev].
  split; [now apply select_nondecr|]. split; [now rewrite O1|].
  unfold trunc. rewrite O1. destruct O as [|o O'] eqn:EO; cbn [map app].
  - rewrite !Z.quot_1_r. split; reflexivity.
  - rewrite !Z.quot_1_r. destruct O3 as [A B]; [rewrite O1; discriminate|]. rewrite A, B. split; reflexivity.
Qed.

(** The rows of the table are, bin by bin, the sums over the categories that [splits] lists for the bin, and these bins
    partition the categories seen (the last one, if present, holding the rare ones).
    Missing for the full claim: tables needing more than one refinement round (see the collapse below) or ending with a
    single bin (see C54: missing, special and rare records are then counted twice). *)
Theorem C56_rows_match_bins_partial : forall solver cutoff b f, solver_ok solver -> NoDup (map fst (cd_t b)) ->
  cat_solve solver cutoff b = Ok f -> cs_prebins f <> [] -> (cs_rounds f <= 1)%nat ->
  Permutation (concat (cs_bins f)) (map fst (cd_t b)) /\
  length (cs_ev f) = (length (cs_bins f) + 2)%nat /\ length (cs_nev f) = (length (cs_bins f) + 2)%nat /\
  forall k g, nth_error (cs_bins f) k = Some g ->
    nth_error (cs_ev f) k = Some (events_in (cd_t b) g) /\ nth_error (cs_nev f) k = Some (nonevents_in (cd_t b) g).
Proof.
  intros solver cutoff b f So N E Ne Rd.
  destruct (cat_solve_spec solver cutoff b f So N E Ne Rd) as (R & O & P & _ & Nd & B & TN & TE).
  set (so := cs_splits f) in *.
  assert (Dig : forall j, (0 <= j < 0 + length (map fst R))%nat -> (digitize so (Z.of_nat j) < S (length so))%nat).
  { intros j _. rewrite digitize_count by assumption. pose proof (BSketchP.filter_le (fun s => s <=? Z.of_nat j) so). lia. }
  assert (LB : length (cs_bins f) = (S (length so) + length (match O with [] => [] | _ => [map fst O] end))%nat).
  { rewrite B. unfold cat_groups. rewrite app_length, map_length, seq_length. destruct O; reflexivity. }
  split; [|split; [|split]].
  - rewrite B. unfold cat_groups. rewrite concat_app. rewrite <- (select_partition (fun j => digitize so (Z.of_nat j)) (S (length so)) (map fst R) 0 Dig).
    assert (Permutation (map fst R ++ map fst O) (map fst (cd_t b))) by (rewrite <- map_app; symmetry; now apply Permutation_map).
    destruct O; cbn [map concat app] in *; [assumption|]. now rewrite app_nil_r.
  - rewrite TE, LB, !app_length, regroup_length. destruct O; cbn [length]; lia.
  - rewrite TN, LB, !app_length, regroup_length. destruct O; cbn [length]; lia.
  - intros k g Eg. destruct (Nat.lt_ge_cases k (S (length so))) as [Lk|Gk].
    + rewrite B in Eg. unfold cat_groups in Eg. rewrite nth_error_app1 in Eg by (rewrite map_length, seq_length; lia).
      rewrite map_seq_nth in Eg by assumption. injection Eg as <-.
      rewrite TE, TN, !nth_error_app1 by (rewrite regroup_length; lia).
      unfold regroup. rewrite !map_seq_nth by assumption. unfold events_in, nonevents_in.
      rewrite !map_length. split; f_equal.
      * rewrite (group_counts (fun r => snd (snd r)) _ R O) by (try assumption; now rewrite map_length, seq_length).
        symmetry. apply (select_combine r_e (fun j => Nat.eqb (digitize so (Z.of_nat j)) k) R 0).
      * rewrite (group_counts (fun r => fst (snd r)) _ R O) by (try assumption; now rewrite map_length, seq_length).
        symmetry. apply (select_combine r_ne (fun j => Nat.eqb (digitize so (Z.of_nat j)) k) R 0).
    + rewrite B in Eg. unfold cat_groups in Eg. rewrite nth_error_app2 in Eg by (rewrite map_length, seq_length; lia).
      rewrite map_length, seq_length in Eg. destruct O as [|o O'] eqn:EO; [destruct (k - S (length so))%nat; discriminate|]. rewrite <- EO in *.
      assert (Ek : (k = S (length so))%nat).
      { rewrite EO in Eg. cbn [map] in Eg. destruct (k - S (length so))%nat as [|[|]] eqn:K; try discriminate. lia. }
      subst k. rewrite Nat.sub_diag in Eg. assert (g = map fst O) by (rewrite EO in Eg; cbn [map nth_error] in Eg; rewrite EO; cbn [map]; congruence). subst g.
      unfold events_in, nonevents_in. rewrite !(others_counts _ _ R O) by assumption. split.
      * rewrite TE. rewrite nth_error_app2 by (rewrite regroup_length; lia). rewrite regroup_length, Nat.sub_diag. reflexivity.
      * rewrite TN. rewrite nth_error_app2 by (rewrite regroup_length; lia). rewrite regroup_length, Nat.sub_diag. reflexivity.
Qed.
Print Assumptions C56_rows_match_bins_partial.

(** A category goes to the "others" bin exactly when its share of all records is below cat_cutoff; the other bins are
    ordered by event rate. *)
Lemma insert_r_sorted x l : 0 < r_ne x + r_e x -> Forall (fun r => 0 < r_ne r + r_e r) l ->
  StronglySorted (fun a c => rate_le a c = true) l -> StronglySorted (fun a c => rate_le a c = true) (insert_r x l).
Proof.
  intros Px. induction l as [|y r IH]; intros Pl So; cbn [insert_r]; [repeat constructor|].
  inversion Pl as [|? ? Py Pr]; subst. inversion So as [|? ? So' Fy]; subst.
  destruct (rate_le x y) eqn:L.
  - constructor; [assumption|]. constructor; [assumption|]. rewrite Forall_forall in *. intros z Iz.
    specialize (Fy z Iz). specialize (Pr z Iz). unfold rate_le in *. rewrite Z.leb_le in *. nia.
  - constructor; [auto|]. assert (yx : rate_le y x = true) by (unfold rate_le in *; rewrite Z.leb_le; rewrite Z.leb_gt in L; lia).
    apply Forall_forall. intros z Iz. apply (Permutation_in z (Permutation_sym (insert_r_perm x r))) in Iz.
    destruct Iz as [<-|Iz]; [assumption|]. rewrite Forall_forall in Fy. auto.
Qed.
Theorem C56_others_and_order : forall cutoff n t, NoDup (map fst t) -> Forall (fun r => 0 <= r_ne r /\ 0 <= r_e r /\ 0 < r_ne r + r_e r) t ->
  let cb := cat_bins cutoff n t in
  (forall r, In r t -> (In (fst r) (cb_others cb) <->
     match cutoff with None => False | Some c => (inject_Z (r_ne r + r_e r) < c * inject_Z n)%Q end)) /\
  (forall r, In r t -> (In r (cb_rows cb) <-> ~ In (fst r) (cb_others cb))) /\
  StronglySorted (fun a c => (r_e a * (r_ne c + r_e c) <= r_e c * (r_ne a + r_e a))) (cb_rows cb).
Proof.
  intros cutoff n t N Pt. cbv zeta.
  assert (Inj : forall r r', In r t -> In r' t -> fst r = fst r' -> r = r').
  { clear Pt. intros r r' I I' Ef. induction t as [|a t IH]; [destruct I|]. cbn [map] in N. inversion N as [|? ? N1 N2]; subst.
    destruct I as [->|I], I' as [->|I']; auto.
    - exfalso. apply N1. rewrite Ef. now apply in_map.
    - exfalso. apply N1. rewrite <- Ef. now apply in_map. }
  assert (Ra : forall c r, rare c n r = true <-> (inject_Z (r_ne r + r_e r) < c * inject_Z n)%Q).
  { intros c r. unfold rare. rewrite negb_true_iff. split.
    - intros H. apply Qnot_le_lt. intros L. apply Qle_bool_iff in L. congruence.
    - intros H. destruct (Qle_bool _ _) eqn:K; [|reflexivity]. apply Qle_bool_iff in K. exfalso. eapply Qlt_not_le; eassumption. }
  assert (Oth : forall r, In r t -> (In (fst r) (cb_others (cat_bins cutoff n t)) <->
     match cutoff with None => False | Some c => (inject_Z (r_ne r + r_e r) < c * inject_Z n)%Q end)).
  { intros r I. destruct cutoff as [c|]; cbn [cat_bins cb_others]; [|cbn; tauto]. rewrite <- Ra. split.
    - intros H. apply in_map_iff in H. destruct H as (r' & Ef & H). apply filter_In in H. destruct H as [I' H'].
      now rewrite <- (Inj r' r I' I Ef).
    - intros H. apply in_map. now apply filter_In. }
  assert (Sor : forall l, Forall (fun r => 0 < r_ne r + r_e r) l -> StronglySorted (fun a c => rate_le a c = true) (sort_r l)).
  { induction 1 as [|x l Hx Hl IH]; [constructor|]. cbn [sort_r fold_right]. apply insert_r_sorted; try assumption.
    rewrite Forall_forall in *. intros r I. apply Hl. apply (Permutation_in r (Permutation_sym (sort_r_perm l)) I). }
  assert (Pt' : Forall (fun r => 0 < r_ne r + r_e r) t) by (eapply Forall_impl; [|exact Pt]; cbn; tauto).
  split; [exact Oth|]. split.
  - intros r I. destruct cutoff as [c|]; cbn [cat_bins cb_rows cb_others]; split.
    + intros H. apply (Permutation_in r (Permutation_sym (sort_r_perm _))) in H. apply filter_In in H. destruct H as [_ H].
      rewrite negb_true_iff in H. intros K. apply zmem_In in K. congruence.
    + intros H. apply (Permutation_in r (sort_r_perm _)). apply filter_In. split; [assumption|].
      rewrite negb_true_iff. destruct (zmem _ _) eqn:K; [|reflexivity]. apply zmem_In in K. contradiction.
    + intros _ [].
    + intros _. apply (Permutation_in r (sort_r_perm _)). assumption.
  - assert (K : StronglySorted (fun a c => rate_le a c = true) (cb_rows (cat_bins cutoff n t))).
    { destruct cutoff as [c|]; cbn [cat_bins cb_rows]; apply Sor; [|assumption].
      rewrite Forall_forall in *. intros r I. apply filter_In in I. apply Pt'. tauto. }
    clear - K. induction K as [|x l K IH F]; constructor; [assumption|]. eapply Forall_impl; [|exact F]. cbn.
    intros a H. unfold rate_le in H. now apply Z.leb_le in H.
Qed.
Print Assumptions C56_others_and_order.

Definition keep_all (a b : list Z) : list bool := map (fun _ => true) a.
Example C56_hyps_met : exists f, cat_solve keep_all (Some (1#10))
    (mkCD [(1,(3,1));(2,(1,3)); (3,(2,2)); (4,(5,0));(7,(1,0))] 1 2 3 4) = Ok f /\ (cs_rounds f <= 1)%nat /\
  cs_prebins f <> [] /\ cs_bins f = [[4; 1]; [3]; [2]; [7]] /\ cs_ev f = [1; 2; 3; 0; 3; 1].
Proof. eexists. split; [vm_compute; reflexivity|]. split; [cbn; lia|]. split; [discriminate|]. split; reflexivity. Qed.

(** One category with no event and two with only events collapse everything into a single bin, although three
    categories hold both classes: _compute_cat_prebins applies splits that are positions among the categories to
    positions among already merged groups (binning_sketch.py:785-787). Without category 4 three bins are kept. *)
Theorem C56_refinement_collapses_refuted :
  let t := [(1,(3,1)); (2,(1,3)); (3,(2,2)); (5,(0,7)); (6,(0,3))] in
  (exists f, cat_solve keep_all None (mkCD t 0 0 0 0) = Ok f /\ cs_bins f = [[1]; [3]; [2; 5; 6]]) /\
  (exists f, cat_solve keep_all None (mkCD ((4,(5,0)) :: t) 0 0 0 0) = Ok f /\ cs_bins f = [[4; 1; 3; 2; 5; 6]]).
Proof. cbv zeta. split; eexists; (split; [vm_compute; reflexivity|reflexivity]). Qed.
Print Assumptions C56_refinement_collapses_refuted.
