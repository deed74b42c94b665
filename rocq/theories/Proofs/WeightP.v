From Coq Require Import List ZArith Lia Bool Arith.
From Verif Require Import Model.Arr Model.Core Model.Weights Spec.CoreSpec Proofs.ArrP Proofs.CoreP Proofs.FitP Proofs.CoreFinal.
Import ListNotations.
Open Scope Z_scope.

(** [c] counts units of size [u] of the weight [e], losing less than one unit in each of at most [b] places *)
Definition near (u b c e : Z) : Prop := c * u <= e <= c * u + b * (u - 1).
Lemma near_trunc u e : 0 < u -> 0 <= e -> near u 1 (trunc u e) e.
Proof.
  intros Hu He. unfold near, trunc. rewrite Z.quot_div_nonneg by lia. pose proof (Z.div_mod e u ltac:(lia)). pose proof (Z.mod_pos_bound e u Hu). nia.
Qed.
Lemma near_le u b b' c e : 0 < u -> b <= b' -> near u b c e -> near u b' c e.
Proof. unfold near. intros. nia. Qed.
Lemma Forall2_impl {A B} (R S : A -> B -> Prop) l l' : (forall a b, R a b -> S a b) -> Forall2 R l l' -> Forall2 S l l'.
Proof. intros H F. induction F; constructor; auto. Qed.
Lemma merge_near u : 0 < u -> forall sol n acc acc' k rows, (forall v, In v n -> 0 <= v) -> near u k acc acc' -> 0 <= k ->
  merge_loop acc' sol n = Some rows ->
  exists rows', merge_loop acc sol (map (trunc u) n) = Some rows' /\ Forall2 (near u (k + Z.of_nat (length sol))) rows' rows.
Proof.
  intros Hu. induction sol as [|b sol IH]; intros n acc acc' k rows Hn Ha Hk H.
  - cbn in *. injection H as <-. exists []. split; [reflexivity|constructor].
  - destruct n as [|v n]; [discriminate|]. cbn [merge_loop map length] in *. pose proof (near_trunc u v Hu (Hn v (or_introl eq_refl))) as Hv.
    assert (Hn' : forall w, In w n -> 0 <= w) by (intros w Hw; apply Hn; now right).
    destruct b.
    + destruct (merge_loop 0 sol n) as [r|] eqn:E; [|discriminate]. cbn [option_map] in H. injection H as <-.
      destruct (IH n 0 0 0 r Hn' ltac:(unfold near; lia) ltac:(lia) E) as (r' & E' & F). rewrite E'. exists (trunc u v + acc :: r'). split; [reflexivity|].
      constructor; [unfold near in *; nia|]. eapply Forall2_impl; [|exact F]. intros a c. apply near_le; lia.
    + assert (Hs : near u (k + 1) (acc + trunc u v) (acc' + v)) by (unfold near in *; nia).
      destruct (IH n (acc + trunc u v) (acc' + v) (k + 1) rows Hn' Hs ltac:(lia) H) as (r' & E' & F). exists r'. split; [exact E'|].
      eapply Forall2_impl; [|exact F]. intros a c. apply near_le; lia.
Qed.
Lemma zsum_nonneg' (l : list Z) : (forall v, In v l -> 0 <= v) -> 0 <= zsum l.
Proof. induction l as [|a r IH]; intros H; cbn; [lia|]. specialize (H a (or_introl eq_refl)) as Ha. assert (0 <= zsum r) by (apply IH; intros v Hv; apply H; now right). lia. Qed.
Lemma counts_trunc wu dig cl data n : counts wu dig cl data n = map (trunc wu) (counts 1 dig cl data n).
Proof.
  unfold counts. rewrite map_map. apply map_ext. intros i. unfold bin_count. f_equal. unfold trunc. now rewrite Z.quot_1_r.
Qed.
Lemma Forall2_app' {A B} (R : A -> B -> Prop) a b c d : Forall2 R a b -> Forall2 R c d -> Forall2 R (a ++ c) (b ++ d).
Proof. apply Forall2_app. Qed.
Lemma Forall2_trunc u l : 0 < u -> (forall v, In v l -> 0 <= v) -> Forall2 (near u 1) (map (trunc u) l) l.
Proof. intros Hu. induction l as [|a r IH]; intros H; cbn; constructor; [apply near_trunc; [exact Hu|apply H; now left]|apply IH; intros v Hv; apply H; now right]. Qed.

Definition pos_rows (l : list row) := forall r, In r l -> 0 <= row_w r.
Lemma weight_nonneg (p : row -> bool) l : pos_rows l -> 0 <= zsum (map row_w (filter p l)).
Proof. intros H. apply zsum_nonneg'. intros v Hv. apply in_map_iff in Hv as (r & <- & Hr). apply filter_In in Hr as [Hr _]. now apply H. Qed.

Lemma sp_rows_nonneg sp cl l v : pos_rows l -> In v (sp_rows sp cl l) -> 0 <= v.
Proof.
  intros H Hv. destruct sp as [|cs|d]; cbn in Hv.
  - destruct Hv as [<-|[]]. now apply weight_nonneg.
  - destruct Hv as [<-|[]]. now apply weight_nonneg.
  - apply in_map_iff in Hv as (i & <- & _). apply weight_nonneg. intros q Hq. apply filter_In in Hq as [Hq _]. now apply H.
Qed.
Lemma finish_fit_rows_w wu solver sp xs ys sw pb f d splits0 : 0 < wu ->
  length xs = length ys -> length xs = length sw -> (forall w, In w sw -> 0 <= w) ->
  no_nan_y ys -> codes_ok sp -> sp_disjoint sp -> nondecreasing splits0 -> solver_ok solver ->
  let o := split_masks sp xs ys sw in
  refined wu d (to_csamples o) splits0 pb ->
  finish_fit wu solver sp o pb = Ok f ->
  let R := rows xs ys sw in let b := Z.of_nat (S (length (pb_splits pb))) in
  nondecreasing (f_splits f) /\
  Forall2 (near wu b) (f_nev f) (expected_rows (f_splits f) sp R true) /\ Forall2 (near wu b) (f_ev f) (expected_rows (f_splits f) sp R false).
Proof.
  intros Hu H1 H2 Hw Hy Hc Hd Hnd Hsol o Href Hf R b.
  set (c := filter (fun r => negb (miss_b r) && negb (spec_b sp r)) R).
  assert (Ho : o = out_of sp R) by (apply split_masks_filter; assumption).
  assert (Hcs : to_csamples o = map (fun r => {| cx := num (row_x r); c0 := y_is0 (row_y r); cw := row_w r |}) c)
    by (rewrite Ho; apply to_csamples_rows; reflexivity).
  assert (HR : pos_rows R). { intros r Hr. apply Hw. unfold R, rows in Hr. destruct r as [xy w]. apply in_combine_r in Hr. exact Hr. }
  assert (Hpc : pos_rows c) by (intros r Hr; apply filter_In in Hr as [Hr _]; now apply HR).
  assert (Hnp : nondecreasing (pb_splits pb)).
  { destruct Href as [Hsub _ _ _]. eapply subseq_nondecr; eauto. }
  assert (Hpos : forall dig cl n v, In v (counts 1 dig cl (to_csamples o) n) -> 0 <= v).
  { intros dig cl n v Hv. unfold counts in Hv. apply in_map_iff in Hv as (i & <- & _). unfold bin_count, trunc. rewrite Z.quot_1_r.
    apply zsum_nonneg'. intros w Hv. apply in_map_iff in Hv as (s & <- & Hs). apply filter_In in Hs as [Hs _]. rewrite Hcs in Hs.
    apply in_map_iff in Hs as (r & <- & Hr). cbn [cw]. now apply Hpc. }
  destruct Href as [_ Hnev Hev _]. unfold finish_fit in Hf.
  rewrite Ho in Hf. cbn [out_of x_clean y_clean sw_clean x_missing y_missing sw_missing x_special y_special sw_special] in Hf.
  fold c in Hf. rewrite !target_info_rows in Hf.
  destruct (target_info_special_rows sp (filter (spec_b sp) R)) as [Es0 Es1].
  rewrite Es0, Es1 in Hf. cbn [fst snd] in Hf.
  destruct (pb_splits pb) as [|s r] eqn:Esp.
  - rewrite Hnev in Hf. cbn [length Nat.leb repeat optimal_splits bin_info_1] in Hf.
    unfold bin_info_1 in Hf. cbn [option_map map app] in Hf. injection Hf as <-. cbn [f_splits f_nev f_ev].
    unfold optimal_splits. cbn [Nat.leb].
    split; [constructor|].
    unfold expected_rows. fold c.
    unfold counts. cbn [length seq map app].
    assert (B : forall cl, bin_count 1 (digitize []) cl
        (map (fun r => {| cx := num (row_x r); c0 := y_is0 (row_y r); cw := row_w r |}) c) 0
        = zsum (map row_w (filter (cls_b cl) c))).
    { intros cl. unfold bin_count, trunc. rewrite Z.quot_1_r. cbn [digitize].
      rewrite (filter_ext _ (fun s => Bool.eqb (c0 s) cl)) by (intros z; cbn; apply andb_true_r).
      generalize c; clear. intros c. induction c as [|r c IH]; cbn [map filter]; [reflexivity|].
      cbn [c0]. unfold cls_b at 1.
      destruct (Bool.eqb (y_is0 (row_y r)) cl); cbn [map zsum cw]; rewrite IH; reflexivity. }
    rewrite !B. unfold b. cbn [length Z.of_nat Pos.of_succ_nat].
    split; (constructor; [apply near_trunc; [exact Hu|now apply weight_nonneg]|]); apply Forall2_app'; try (apply Forall2_trunc; [exact Hu|]);
      try (constructor; [apply near_trunc; [exact Hu|]|constructor]).
    all: try (apply weight_nonneg; intros q Hq; apply filter_In in Hq as [Hq _]; now apply HR).
    all: intros v; apply sp_rows_nonneg; intros q Hq; apply filter_In in Hq as [Hq _]; now apply HR.
  - rewrite <- Esp in *.
    assert (Hlen : length (pb_nev pb) = S (length (pb_splits pb)) /\ length (pb_ev pb) = S (length (pb_splits pb))).
    { rewrite Hnev, Hev. rewrite Esp at 1 4. split; apply length_counts. }
    destruct Hlen as [Ln Le].
    assert (Hgt : (length (pb_nev pb) <=? 1)%nat = false) by (rewrite Ln, Esp; cbn; reflexivity).
    rewrite Hgt in Hf. unfold optimal_splits in Hf. rewrite Hgt in Hf.
    destruct (Hsol (pb_nev pb) (pb_ev pb)) as [Hsl Hla]; [lia|rewrite Ln, Esp; cbn; lia|].
    set (sol := solver (pb_nev pb) (pb_ev pb)) in *.
    assert (Hne : sol <> []) by (intros Hn; rewrite Hn in Hsl; cbn in Hsl; lia).
    assert (M : forall cl, merge_loop 0 sol (counts 1 (digitize (pb_splits pb)) cl (to_csamples o) (S (length (pb_splits pb))))
        = Some (counts 1 (digitize (select (init sol) (pb_splits pb))) cl (to_csamples o)
                  (S (length (select (init sol) (pb_splits pb))))))
      by (intros cl; apply merge_counts_digitize; [exact Hnp|lia|exact Hla]).
    assert (M' : forall cl, exists rows', merge_loop 0 sol (counts wu (digitize (pb_splits pb)) cl (to_csamples o) (S (length (pb_splits pb)))) = Some rows' /\
      Forall2 (near wu b) rows' (counts 1 (digitize (select (init sol) (pb_splits pb))) cl (to_csamples o) (S (length (select (init sol) (pb_splits pb)))))).
    { intros cl. rewrite counts_trunc. destruct (merge_near wu Hu sol _ 0 0 0 _ (Hpos _ _ _) ltac:(unfold near; lia) ltac:(lia) (M cl)) as (r' & E & F).
      exists r'. split; [exact E|]. eapply Forall2_impl; [|exact F]. intros x y. apply near_le; [exact Hu|]. unfold b. rewrite Hsl, Ln. rewrite ?Esp. cbn [length]. rewrite Z.add_0_l. apply Z.le_refl. }
    clearbody sol. rewrite Hnev, Hev in Hf. unfold bin_info_1 in Hf.
    destruct sol as [|b0 sol0] eqn:Esol; [congruence|]. rewrite <- Esol in *.
    destruct (M' true) as (r1 & E1 & F1). destruct (M' false) as (r2 & E2 & F2).
    rewrite E1, E2 in Hf. cbn [option_map] in Hf. injection Hf as <-. cbn [f_splits f_nev f_ev].
    split; [now apply select_nondecr|].
    unfold expected_rows. fold c. rewrite <- Hcs.
    assert (Hb : 1 <= b) by (unfold b; lia).
    split; (apply Forall2_app'; [assumption|]); cbn [map app]; apply Forall2_app'.
    all: try (eapply Forall2_impl; [intros x y; apply (near_le wu 1 b); [exact Hu|exact Hb]|apply Forall2_trunc; [exact Hu|]]).
    all: try (constructor; [apply (near_le wu 1 b); [exact Hu|exact Hb|apply near_trunc; [exact Hu|]]|constructor]).
    all: try (apply weight_nonneg; intros q Hq; apply filter_In in Hq as [Hq _]; now apply HR).
    all: intros v; apply sp_rows_nonneg; intros q Hq; apply filter_In in Hq as [Hq _]; now apply HR.
Qed.

Lemma subseq_len {A} (a b : list A) : subseq a b -> (length a <= length b)%nat.
Proof. intros H. induction H; cbn; lia. Qed.
Lemma fit_near wu d solver sp fixed user splits0 xs ys sw f : 0 < wu -> (forall w, In w sw -> 0 <= w) ->
  length xs = length ys -> length xs = length sw ->
  no_nan_y ys -> codes_ok sp -> sp_disjoint sp -> nondecreasing splits0 -> solver_ok solver ->
  fit_numerical wu d solver sp fixed user splits0 xs ys sw = Some (Ok f) ->
  let n_rows := (S (length (f_splits f)) + n_special sp + 1)%nat in let b := Z.of_nat (S (length splits0)) in
  length (f_nev f) = n_rows /\ length (f_ev f) = n_rows /\
  forall k, (k < n_rows)%nat -> exists c0 c1, nth_error (f_nev f) k = Some c0 /\ nth_error (f_ev f) k = Some c1 /\
    near wu b c0 (weight_of (goes_to (f_splits f) sp true k) (rows xs ys sw)) /\
    near wu b c1 (weight_of (goes_to (f_splits f) sp false k) (rows xs ys sw)).
Proof.
  intros Hu Hw H1 H2 Hy Hc Hd Hnd Hsol Hf n_rows b. unfold fit_numerical in Hf.
  destruct (compute_prebins _ _ _ _ _ _ _ _ _) as [[pb|e]|] eqn:Ep; try discriminate.
  injection Hf as Hf. apply compute_prebins_refined in Ep.
  destruct (finish_fit_rows_w wu solver sp xs ys sw pb f d splits0) as (Hn & E1 & E2); auto.
  assert (Hb : Z.of_nat (S (length (pb_splits pb))) <= b). { destruct Ep as [Hs _ _ _]. apply subseq_len in Hs. unfold b. lia. }
  assert (Hry : forall r, In r (rows xs ys sw) -> row_y r <> YNaN).
  { intros r Hr. apply rows_In_y in Hr. intros Hn'. rewrite Hn' in Hr. contradiction. }
  destruct (expected_rows_spec (f_splits f) sp (rows xs ys sw) Hry Hc Hd true) as [L1 N1].
  destruct (expected_rows_spec (f_splits f) sp (rows xs ys sw) Hry Hc Hd false) as [L2 N2].
  assert (G : forall l l' : list Z, Forall2 (near wu (Z.of_nat (S (length (pb_splits pb))))) l l' -> length l = length l' /\
    forall k e, nth_error l' k = Some e -> exists c, nth_error l k = Some c /\ near wu b c e).
  { intros l l' F. induction F as [|x y l l' Hxy F [IL IN]]; [split; [reflexivity|intros [|k] e; discriminate]|]. split; [cbn; now rewrite IL|].
    intros [|k] e He; cbn in He; [injection He as <-; exists x; split; [reflexivity|]; eapply near_le; eauto|]. now apply IN. }
  destruct (G _ _ E1) as [G1 G1'], (G _ _ E2) as [G2 G2']. unfold n_rows. rewrite G1, G2. split; [exact L1|]. split; [exact L2|]. intros k Hk.
  destruct (G1' k _ (N1 k Hk)) as (c0 & A0 & B0), (G2' k _ (N2 k Hk)) as (c1 & A1 & B1). exists c0, c1. auto.
Qed.
Lemma times_class_length c ys sw : length ys = length sw -> length (times_class c ys sw) = length sw.
Proof. unfold times_class. revert sw. induction ys as [|y ys IH]; intros [|s sw] H; cbn in *; try discriminate; [reflexivity|]. f_equal. apply IH. lia. Qed.
Lemma times_class_nonneg c ys sw : 0 <= cw0 c -> 0 <= cw1 c -> (forall w, In w sw -> 0 <= w) -> forall w, In w (times_class c ys sw) -> 0 <= w.
Proof.
  intros H0 H1. unfold times_class. revert sw. induction ys as [|y ys IH]; intros [|s sw] H w Hw; cbn in Hw; try contradiction.
  destruct Hw as [<-|Hw]; [|eapply IH; [|exact Hw]; intros v Hv; apply H; now right].
  specialize (H s (or_introl eq_refl)). unfold cw_of. destruct (y_is0 y); nia.
Qed.
