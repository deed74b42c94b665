(** SBOptimalBinning over histories: totals, transform, ranges, what an emptied object shows. *)
From Coq Require Import List ZArith Bool Arith Lia QArith Reals.
From Verif Require Import Model.Arr Model.Core Model.CP Model.Multi Model.Metrics Model.Lifecycle Model.Scenario Model.ScenLife
  Spec.CoreSpec Spec.CPSpec Spec.ScenarioSpec Spec.ScenLifeSpec Proofs.ArrP Proofs.CoreP Proofs.FitP Proofs.CoreFinal Proofs.CPTable Proofs.MultiP Proofs.MetricsFinal Proofs.LifeP Proofs.LifeR Proofs.ScenP Proofs.ScenQ
  Proofs.ScenLifeP Proofs.ScenLifeQ Proofs.ScenLifeR Proofs.ScenLifeS Props.ScenarioProps.
Import ListNotations.
Open Scope Z_scope.

(** * Totals *)
Lemma zsum_nonneg l : (forall v, In v l -> 0 <= v) -> 0 <= zsum l.
Proof. induction l as [|a l IH]; intros H; cbn; [lia|]. pose proof (H a (or_introl eq_refl)). assert (0 <= zsum l) by (apply IH; intros; apply H; now right). lia. Qed.
Lemma zsum_pos l v : (forall v, In v l -> 0 <= v) -> In v l -> 0 < v -> 0 < zsum l.
Proof.
  induction l as [|a l IH]; intros H Hv Hp; [contradiction|]. cbn. pose proof (H a (or_introl eq_refl)).
  assert (N : 0 <= zsum l) by (apply zsum_nonneg; intros; apply H; now right). destruct Hv as [->|Hv]; [lia|].
  assert (0 < zsum l) by (apply IH; [intros; apply H; now right|exact Hv|exact Hp]). lia.
Qed.
Definition row_test (splits : list Z) (sp : special) (ne : bool) (k : nat) (r : xval * yval) : bool :=
  Bool.eqb (y_is0 (snd r)) ne && match transform_indices splits sp Empirical Empirical (fst r) with Ok z => z =? Z.of_nat k | Err _ => false end.
Lemma row_test_iff splits sp ne k x y : nondecreasing splits -> sp_disjoint sp -> codes_ok sp ->
  row_test splits sp ne k (x, y) = true <-> y_is0 y = ne /\ row_of splits sp x k.
Proof.
  intros A B C. unfold row_test. cbn [fst snd]. rewrite andb_true_iff, eqb_true_iff, <- (C25_empirical splits sp x k A B C).
  destruct (transform_indices _ _ _ _ _) as [z|ex]; [rewrite Z.eqb_eq|]; split; intros [P Q]; split; auto; try congruence; try discriminate.
Qed.
Lemma totals_pos e o X w o' f : sb_env_ok e -> (forall s, In s X -> scen_valid s) -> sb_fit e o X w = (o', Some (Ok f)) ->
  0 < zsum (sf_nev f) /\ 0 < zsum (sf_ev f).
Proof.
  intros K HV Hf. pose proof (sb_fit_inv _ _ _ _ _ _ Hf) as F.
  destruct (C65_tables_exact _ _ _ _ _ _ K HV Hf) as (Hn & Lt & T & L1 & L2 & S). cbv zeta in *.
  set (n := (Datatypes.S (length (sf_splits f)) + 2)%nat) in *.
  destruct X as [|s X']; [exfalso; exact (ss_X _ _ _ _ _ F eq_refl)|].
  assert (Cell : forall i sc t k, nth_error (s :: X') i = Some sc -> nth_error (sf_tables f) i = Some t -> (k < n)%nat ->
     scen_count (sf_splits f) (se_sp e) sc true k (nth k (fst t) 0) /\ scen_count (sf_splits f) (se_sp e) sc false k (nth k (snd t) 0)).
  { intros i sc t k Hi Ht Hk. destruct (T i sc Hi) as (t' & Ht' & _ & _ & C). rewrite Ht in Ht'. injection Ht' as <-. destruct (C k Hk) as (a & b & A & B & D & E).
    rewrite (nth_error_nth _ _ 0 A), (nth_error_nth _ _ 0 B). split; [exact D|exact E]. }
  assert (NN : forall i t k, nth_error (sf_tables f) i = Some t -> (k < n)%nat -> 0 <= nth k (fst t) 0 /\ 0 <= nth k (snd t) 0).
  { intros i t k Ht Hk. assert (exists sc, nth_error (s :: X') i = Some sc) as [sc Hsc].
    { destruct (nth_error (s :: X') i) eqn:E; [eauto|]. apply nth_error_None in E. assert (Q : nth_error (sf_tables f) i <> None) by congruence. apply nth_error_Some in Q. lia. }
    destruct (Cell i sc t k Hsc Ht Hk) as [A B].
    rewrite (A _ (fun x y => row_test_iff (sf_splits f) (se_sp e) true k x y Hn (sp_disjoint_env _ K) (ek_nan _ K))),
            (B _ (fun x y => row_test_iff (sf_splits f) (se_sp e) false k x y Hn (sp_disjoint_env _ K) (ek_nan _ K))). lia. }
  destruct (sf_tables f) as [|t0 ts] eqn:Et; [cbn in Lt; discriminate|].
  assert (P : forall b, exists k, (k < n)%nat /\ 0 < nth k (if b : bool then fst t0 else snd t0) 0).
  { intros b. destruct (refined_clean _ _ _ (scen_data (se_sp e) s) (ss_refined _ _ _ _ _ F) (ss_ne _ _ _ _ _ F)) with (b := b) as (c & Hc & Hb); [now left|].
    destruct (HV s (or_introl eq_refl)) as [Ls _]. apply (proj2 (clean_records_spec (se_sp e) s Ls)) in Hc. destruct Hc as (v & y & -> & Hin & _ & Hns). cbn [c0] in Hb.
    set (k := digitize (sf_splits f) v). pose proof (digitize_in_bin (sf_splits f) v Hn) as Hk. fold k in Hk. pose proof (in_bin_i_lt _ _ _ Hk) as Hlt.
    assert (Hkn : (k < n)%nat) by (unfold n; lia). exists k. split; [exact Hkn|].
    assert (R : row_test (sf_splits f) (se_sp e) b k (XNum v, y) = true).
    { apply row_test_iff; [exact Hn|exact (sp_disjoint_env _ K)|exact (ek_nan _ K)|]. split; [exact Hb|]. right. auto. }
    destruct (Cell 0%nat s t0 k eq_refl eq_refl Hkn) as [A B].
    assert (Fl : forall ne, ne = b -> (0 < length (filter (row_test (sf_splits f) (se_sp e) ne k) (combine (fst s) (snd s))))%nat).
    { intros ne ->. destruct (filter _ _) as [|r l] eqn:E; [|cbn; lia]. exfalso. assert (Q : In (XNum v, y) []) by (rewrite <- E; apply filter_In; auto). exact Q. }
    destruct b.
    - rewrite (A _ (fun x y => row_test_iff (sf_splits f) (se_sp e) true k x y Hn (sp_disjoint_env _ K) (ek_nan _ K))). specialize (Fl true eq_refl). lia.
    - rewrite (B _ (fun x y => row_test_iff (sf_splits f) (se_sp e) false k x y Hn (sp_disjoint_env _ K) (ek_nan _ K))). specialize (Fl false eq_refl). lia. }
  assert (C : forall (g : list Z * list Z -> list Z) (row : list Z), length row = n ->
     (forall k, (k < n)%nat -> nth_error row k = Some (zsum (map (fun t => nth k (g t) 0) (t0 :: ts)))) ->
     (forall i t k, nth_error (t0 :: ts) i = Some t -> (k < n)%nat -> 0 <= nth k (g t) 0) -> (exists k, (k < n)%nat /\ 0 < nth k (g t0) 0) -> 0 < zsum row).
  { intros g row Lr Hr Hg (k & Hk & Hp). assert (Hs : forall j, (j < n)%nat -> 0 <= zsum (map (fun t => nth j (g t) 0) (t0 :: ts))).
    { intros j Hj. apply zsum_nonneg. intros v Hv. apply in_map_iff in Hv. destruct Hv as (t & <- & Ht). apply In_nth_error in Ht. destruct Ht as [i Hi]. eapply Hg; eauto. }
    eapply zsum_pos with (v := zsum (map (fun t => nth k (g t) 0) (t0 :: ts))).
    - intros v Hv. apply In_nth_error in Hv. destruct Hv as [j Hj]. assert (Hjn : (j < n)%nat) by (rewrite <- Lr; apply nth_error_Some; congruence).
      rewrite (Hr j Hjn) in Hj. injection Hj as <-. apply Hs, Hjn.
    - eapply nth_error_In. apply (Hr k Hk).
    - cbn [map zsum]. assert (0 <= zsum (map (fun t => nth k (g t) 0) ts)); [|lia].
      apply zsum_nonneg. intros v Hv. apply in_map_iff in Hv. destruct Hv as (t & <- & Ht). apply In_nth_error in Ht. destruct Ht as [i Hi]. apply (Hg (Datatypes.S i)); auto. }
  split.
  - apply (C fst); auto; [intros k Hk; apply S, Hk|intros i t k Hi Hk; eapply NN; eauto|apply (P true)].
  - apply (C snd); auto; [intros k Hk; apply S, Hk|intros i t k Hi Hk; eapply NN; eauto|apply (P false)].
Qed.

Lemma all_res_ok {A B} (f : A -> res B) xs vs : Forall2 (fun x v => f x = Ok v) xs vs -> all_res (map f xs) = Ok vs.
Proof. induction 1 as [|x v xs vs H _ IH]; [reflexivity|]. cbn [map all_res]. now rewrite H, IH. Qed.

(** * The clean records the prebinning method gets *)
Lemma scen_data_records sp s : scen_valid s -> scen_data sp s = clean_records sp s.
Proof.
  destruct s as [xs ys]. intros [L _]. cbn [fst snd] in L. unfold scen_data, scen_split, clean_records. cbn [fst snd].
  rewrite split_masks_filter by (rewrite ?repeat_length; auto). unfold out_of, to_csamples. cbn [x_clean y_clean sw_clean].
  revert ys L. induction xs as [|x xs IH]; intros [|y ys] L; try discriminate; [reflexivity|]. cbn [length repeat]. unfold rows in *. cbn [combine filter flat_map]. cbn in L. assert (L' : length xs = length ys) by lia.
  rewrite <- (IH ys L').
  assert (Q : negb (miss_b (x, y, 1)) && negb (spec_b sp (x, y, 1)) = match x, y with XNaN, _ => false | _, YNaN => false | XNum z, _ => negb (isin (flat_codes sp) (XNum z)) end).
  { rewrite flat_codes_spec. unfold miss_b, row_x, row_y. cbn [fst snd]. destruct x, y; reflexivity. }
  rewrite Q. destruct x as [|z]; [reflexivity|]. destruct y; [reflexivity| |]; destruct (isin (flat_codes sp) (XNum z)); cbn [negb]; reflexivity.
Qed.
Lemma clean_len sp s : scen_valid s -> length (x_clean (scen_split sp s)) = length (clean_records sp s).
Proof.
  intros V. rewrite <- (scen_data_records sp s V). destruct s as [xs ys], V as [L _]. cbn [fst snd] in L. unfold scen_data, scen_split, to_csamples. cbn [fst snd].
  rewrite split_masks_filter by (rewrite ?repeat_length; auto). unfold out_of. cbn [x_clean y_clean sw_clean].
  rewrite length_map2; rewrite ?combine_length, ?map_length; lia.
Qed.

(** * What an emptied object shows *)
Lemma emptied_shows e o o' fs : q_fitted o = true -> emptied o o' ->
  ask e (o', fs) SStatus = Ok (SVStatus (Some 0)) /\ ask e (o', fs) SSplits = Ok (SVSplits (Some [])) /\ ask e (o', fs) STable = ask e (o, fs) STable /\
  (forall xs, (forall x, In x xs -> exists z, x = XNum z /\ ~ In x (flat_codes (l_sp e))) ->
     forall ms mm, ask e (o', fs) (STransform xs (SIndices ms mm)) = Ok (SVAnswer (SAInd (map (fun _ => 0) xs)))) /\
  (forall xs b ms mm, ask e (o', fs) (STransform xs (SValue b ms mm)) = Err OtherError) /\
  (forall id v, ask e (o', fs) (SScenTable id) <> Ok v).
Proof.
  intros Q (A & B & C & D & E & F). rewrite Q in F. unfold ask. cbn [sb_step snd]. unfold sb_guard, sb_transform, scen_tab. rewrite F, A, B, C, D, E, Q. cbn [negb].
  repeat (split; [reflexivity|]). split; [|split].
  - intros xs H ms mm. erewrite all_res_ok; [reflexivity|]. induction xs as [|x xs IH]; [constructor|]. cbn [map]. constructor; [|apply IH; intros; apply H; now right].
    destruct (H x (or_introl eq_refl)) as (z & -> & Hz). apply (indices_are_bins [] (l_sp e) ms mm z 0); [constructor|exact Hz|]. exists 0%nat. split; [reflexivity|].
    split; cbn; [exact I|exact I] || (cbn; auto).
  - intros xs b ms mm. reflexivity.
  - intros id v. destruct id as [i|]; [|discriminate]. destruct (i <? 0); [discriminate|]. destruct (q_nscen o') as [n|]; [|discriminate]. destruct (_ <=? i); [discriminate|].
    destruct (Z.to_nat i); discriminate.
Qed.

(** without fixed splits the refinement never refuses *)
Lemma refinement_none fuel datas : forall user nref splits r, compute_prebins_s fuel datas None user nref splits = Some r -> exists pb, r = Ok pb.
Proof.
  induction fuel as [|fuel IH]; intros user nref splits r H; [discriminate|]. destruct splits as [|s rest].
  - injection H as <-. eauto.
  - rewrite compute_prebins_s_step in H. cbv zeta in H. destruct (any _); [eapply IH; exact H|injection H as <-; eauto].
Qed.
