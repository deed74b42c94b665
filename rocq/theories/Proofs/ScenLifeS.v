(** SBOptimalBinning over histories: alike objects answer alike; what a failing fit leaves; clean values; totals. *)
From Coq Require Import List ZArith Bool Arith Lia QArith Reals.
From Verif Require Import Model.Arr Model.Core Model.CP Model.Multi Model.Metrics Model.Lifecycle Model.Scenario Model.ScenLife
  Spec.CoreSpec Spec.CPSpec Spec.ScenarioSpec Spec.ScenLifeSpec Proofs.ArrP Proofs.CoreP Proofs.FitP Proofs.CoreFinal Proofs.CPTable Proofs.MultiP Proofs.LifeP Proofs.LifeR Proofs.ScenP Proofs.ScenQ
  Proofs.ScenLifeP Proofs.ScenLifeQ Proofs.ScenLifeR.
Import ListNotations.
Open Scope Z_scope.

Ltac alike_split := unfold alike in *; cbn [q_par q_nref q_nscen q_npre q_status q_splits q_counts q_tables q_table q_fitted set_nscen set_par set_npre set_res set_post set_tab fst snd] in *; intuition congruence.

Lemma alike_post e o1 o2 d sol s cols : alike o1 o2 -> alike (fst (sb_post e o1 d sol s cols)) (fst (sb_post e o2 d sol s cols)).
Proof.
  intros A. unfold sb_post. assert (H : q_par o1 = q_par o2) by apply A. rewrite H. destruct (post_loop _ _ _ _ _ _ _ _ _) as [[ts c] [u|k]]; alike_split.
Qed.
Lemma alike_optimise e o1 o2 d pb : alike o1 o2 -> alike (fst (sb_optimise e o1 d pb)) (fst (sb_optimise e o2 d pb)).
Proof.
  intros A. unfold sb_optimise. assert (H : q_par o1 = q_par o2) by apply A. rewrite H. destruct (mp_splits pb).
  - apply alike_post. alike_split.
  - destruct (sd_X d); [exact A|]. destruct (match sd_w d with Some v => int_weights v | None => _ end); [|exact A].
    destruct (l_solve e _) as [[st sol]|k]; [|exact A]. apply alike_post. alike_split.
Qed.
Lemma alike_fit e o1 o2 d : alike o1 o2 -> alike (fst (sb_fit_obj e o1 d)) (fst (sb_fit_obj e o2 d)).
Proof.
  intros A. assert (H : q_par o1 = q_par o2) by apply A. unfold sb_fit_obj. cbv zeta. cbn [set_nscen q_par q_nref]. rewrite H. destruct (_ || _)%bool; [exact A|]. destruct (sd_lists d); [exact A|].
  destruct (match sd_w d with Some v => _ | None => false end); [exact A|]. destruct (sd_split d); [alike_split|].
  destruct (pre_splits e (q_par o2) d) as [[s0 fx]|k]; [|alike_split].
  match goal with |- context [refine_attrs ?a ?b ?c ?d ?e ?f] => destruct (refine_attrs a b c d e f) as [[f1 us] k] end.
  match goal with |- context [compute_prebins_s ?a ?b ?c ?d ?e ?f] => destruct (compute_prebins_s a b c d e f) as [[pb|x]|] end; [apply alike_optimise; alike_split|alike_split|alike_split].
Qed.
Lemma same_refl a : same_answer a a.
Proof. destruct a as [[]|]; cbn; auto. Qed.
Lemma alike_transform e o1 o2 xs m : alike o1 o2 -> sb_transform e o1 xs m = sb_transform e o2 xs m.
Proof.
  intros (_ & _ & _ & _ & A & B & _ & _ & C). unfold sb_transform. now rewrite A, B, C.
Qed.
Lemma alike_step e o1 o2 fs c : alike o1 o2 ->
  alike (fst (fst (sb_step e (o1, fs) c))) (fst (fst (sb_step e (o2, fs) c))) /\ snd (fst (sb_step e (o1, fs) c)) = snd (fst (sb_step e (o2, fs) c)) /\
  same_answer (snd (sb_step e (o1, fs) c)) (snd (sb_step e (o2, fs) c)).
Proof.
  intros A. destruct c; cbn [sb_step]; unfold sb_guard.
  - pose proof (alike_fit e o1 o2 d A) as F. pose proof (fit_res e o1 o2 d (proj1 A)) as R.
    destruct (sb_fit_obj e o1 d) as [o1' r1], (sb_fit_obj e o2 d) as [o2' r2]. cbn [fst snd] in *. subst r2. split; [exact F|]. split; [reflexivity|apply same_refl].
  - pose proof (alike_fit e o1 o2 d A) as F. pose proof (fit_res e o1 o2 d (proj1 A)) as R.
    destruct (sb_fit_obj e o1 d) as [o1' r1], (sb_fit_obj e o2 d) as [o2' r2]. cbn [fst snd] in *. subst r2. split; [exact F|]. split; [reflexivity|].
    rewrite (alike_transform _ _ _ _ _ F). apply same_refl.
  - cbn [fst snd]. rewrite (alike_transform _ _ _ _ _ A). split; [exact A|]. split; [reflexivity|apply same_refl].
  - cbn [fst snd]. split; [exact A|]. split; [reflexivity|]. destruct A as (_ & _ & _ & _ & B & _ & _ & _ & C). rewrite B, C. apply same_refl.
  - cbn [fst snd]. split; [exact A|]. split; [reflexivity|]. destruct A as (_ & _ & _ & B & _ & _ & _ & _ & C). rewrite B, C. apply same_refl.
  - cbn [fst snd]. split; [exact A|]. split; [reflexivity|]. destruct A as (_ & _ & _ & _ & _ & _ & _ & B & C). rewrite B, C. apply same_refl.
  - cbn [fst snd]. split; [exact A|]. split; [reflexivity|]. destruct A as (_ & B & _ & _ & _ & _ & C & _ & D). unfold scen_tab. rewrite B, C, D. apply same_refl.
  - cbn [fst snd]. split; [exact A|]. split; [reflexivity|]. destruct A as (_ & _ & B & C & _ & _ & _ & _ & D). rewrite B, C, D. destruct (q_fitted o2), ok; cbn; auto.
  - assert (B : q_table o1 = q_table o2) by apply A. assert (D : q_fitted o1 = q_fitted o2) by apply A. unfold sb_to_json. rewrite B, D.
    destruct p as [p|]; [|split; [exact A|split; reflexivity]]. destruct (negb (q_fitted o2)); [split; [exact A|split; reflexivity]|].
    destruct (q_table o2) as [t|]; [|split; [exact A|split; reflexivity]]. destruct (json_ok t); split; [exact A|split; reflexivity|exact A|split; reflexivity].
  - unfold sb_read_json. destruct (fs p) as [[j|]|]; cbn; (split; [alike_split|]; split; reflexivity).
Qed.
Lemma alike_exec e h : forall o1 o2 fs, alike o1 o2 -> Forall2 same_answer (snd (sb_exec e (o1, fs) h)) (snd (sb_exec e (o2, fs) h)).
Proof.
  induction h as [|c h IH]; intros o1 o2 fs A; [constructor|]. rewrite !exec_cons. cbn [snd]. destruct (alike_step e o1 o2 fs c A) as (B & C & D).
  constructor; [exact D|]. destruct (sb_step e (o1, fs) c) as [[o1' f1] v1], (sb_step e (o2, fs) c) as [[o2' f2] v2]. cbn [fst snd] in *. subst f2. apply IH. exact B.
Qed.

(** * Failing fits *)
Lemma scen_data_nil sp s : x_clean (scen_split sp s) = [] -> scen_data sp s = [].
Proof. intros H. unfold scen_data, to_csamples. rewrite H. reflexivity. Qed.
Lemma bin_count_nil wu dig c i : bin_count wu dig c [] i = 0.
Proof. unfold bin_count. cbn. unfold trunc. apply Z.quot_0_l || (destruct wu; reflexivity). Qed.

Lemma refined_clean (datas : list (list csample)) s0 pb dt : refined_s datas s0 pb -> mp_splits pb <> [] -> In dt datas ->
  forall b, exists c, In c dt /\ c0 c = b.
Proof.
  intros R N Hd b. set (sp := mp_splits pb) in *.
  assert (Hc : In (counts 1 (digitize sp) true dt (S (length sp)), counts 1 (digitize sp) false dt (S (length sp))) (mp_cols pb)).
  { rewrite (rs_cols _ _ _ R N). unfold scen_cols. apply in_map_iff. exists dt. auto. }
  assert (Z : bin_count 1 (digitize sp) b dt 0 <> 0).
  { apply (rs_nz _ _ _ R _ _ Hc). cbn [fst snd]. destruct b; [left|right]; unfold counts; apply in_map_iff; exists 0%nat; (split; [reflexivity|apply in_seq; lia]). }
  unfold bin_count in Z. destruct (filter _ dt) as [|c l] eqn:E; [cbn in Z; congruence|].
  assert (K : In c (filter (fun s => Bool.eqb (c0 s) b && Nat.eqb (digitize sp (cx s)) 0) dt)) by (rewrite E; now left).
  apply filter_In in K. destruct K as [K1 K2]. apply andb_true_iff in K2. destruct K2 as [K2 _]. apply eqb_prop in K2. eauto.
Qed.
Lemma sol_ok e d pb st sol wi fx : lenv_ok e -> refined_s (map (scen_data (l_sp e)) (sd_X d)) (mp_splits pb) pb -> mp_splits pb <> [] -> sd_X d <> [] ->
  l_solve e {| pr_cols := mp_cols pb; pr_lens := map (fun s => Z.of_nat (length (fst s))) (sd_X d); pr_w := wi; pr_fixed := fx |} = Ok (st, sol) ->
  length sol = S (length (mp_splits pb)).
Proof.
  intros K R N NX H. pose proof (rs_cols _ _ _ R N) as C. eapply (lk_solve _ K) in H; [exact (proj1 H)| | |].
  - destruct (mp_splits pb); [congruence|]. cbn. lia.
  - cbn [pr_cols]. rewrite C. unfold scen_cols. intros E. apply map_eq_nil, map_eq_nil in E. contradiction.
  - cbn [pr_cols]. intros c Hc. rewrite C in Hc. exact (scen_cols_len _ _ _ Hc).
Qed.
Lemma refined_self datas s0 pb : refined_s datas s0 pb -> refined_s datas (mp_splits pb) pb.
Proof. intros [A B C]. constructor; auto. apply subseq_refl. Qed.

(** what is left by the optimiser when it fails *)
Lemma optimise_failed e o d pb o' k : lenv_ok e -> (forall s, In s (sd_X d) -> scen_valid s) -> refined_s (map (scen_data (l_sp e)) (sd_X d)) (mp_splits pb) pb ->
  sb_optimise e o d pb = (o', Err k) -> (mp_splits pb = [] /\ emptied o o') \/ same_binning o o'.
Proof.
  intros K HV R H. unfold sb_optimise in H. destruct (mp_splits pb) as [|z l] eqn:Es.
  - left. split; [reflexivity|]. unfold sb_post in H. destruct (sd_X d) as [|s X].
    + cbn [post_loop] in H. discriminate.
    + cbn [post_loop] in H. destruct (map num _); injection H as <- <-; repeat split; reflexivity.
  - right. destruct (sd_X d) as [|x0 X] eqn:EX; [injection H as <- <-; repeat split; reflexivity|]. rewrite <- EX in *.
    destruct (match sd_w d with Some v => int_weights v | None => _ end) as [wi|]; [|injection H as <- <-; repeat split; reflexivity].
    destruct (l_solve e _) as [[st sol]|k'] eqn:El; [|injection H as <- <-; repeat split; reflexivity]. exfalso.
    assert (L : length sol = S (length (mp_splits pb))).
    { eapply sol_ok; [exact K| | |rewrite EX; discriminate|exact El]; [rewrite Es; exact R|rewrite Es; discriminate]. }
    rewrite <- Es in R. assert (NS : mp_splits pb <> []) by (rewrite Es; discriminate).
    unfold sb_post in H. match type of H with context [post_loop ?a ?b ?c ?d ?f ?g ?h ?i ?j] =>
      assert (T : snd (post_loop a b c d f g h i j) = Ok tt); [apply post_loop_total|destruct (post_loop a b c d f g h i j) as [[ts cc] r]; cbn [snd] in T; subst r; discriminate] end.
    + intros s Hs E. apply map_eq_nil in E. apply scen_data_nil in E. destruct (refined_clean _ _ _ (scen_data (l_sp e) s) R NS) with (b := true) as (c & Hc & _); [apply in_map; exact Hs|]. rewrite E in Hc. exact Hc.
    + rewrite (rs_cols _ _ _ R NS). unfold scen_cols. now rewrite !map_length.
    + intros s col Hs Hc. rewrite (rs_cols _ _ _ R NS) in Hc. destruct (scen_cols_len _ _ _ Hc) as [L1 L2]. unfold scen_table.
      cbv zeta.
      match goal with |- context [bin_info_1 1 sol (fst col) None ?sp ?m] => pose proof (bin_info_some 1 sol (fst col) None sp m ltac:(lia) ltac:(intros E; rewrite E in L1; discriminate)) as A; destruct (bin_info_1 1 sol (fst col) None sp m) as [v1|]; [|congruence] end.
      match goal with |- context [bin_info_1 1 sol (snd col) None ?sp ?m] => pose proof (bin_info_some 1 sol (snd col) None sp m ltac:(lia) ltac:(intros E; rewrite E in L2; discriminate)) as B; destruct (bin_info_1 1 sol (snd col) None sp m) as [v2|]; [|congruence] end.
      discriminate.
Qed.
Lemma refinement_refined e p d s0 fx pb : refinement e p d s0 fx = Some (Ok pb) -> refined_s (map (scen_data (l_sp e)) (sd_X d)) (map (l_rnd e) s0) pb.
Proof. apply compute_prebins_s_refined. Qed.
Lemma fit_failed e o d o' k : lenv_ok e -> (forall s, In s (sd_X d) -> scen_valid s) -> sb_fit_obj e o d = (o', Err k) -> same_binning o o' \/ emptied o o'.
Proof.
  intros K HV H. apply fit_run_of in H. remember (Err k) as r eqn:Er. destruct H as [k' N|k' C _|s0 fx k' C S Ep Ec|s0 fx pb o' r C S Ep Ec Eo]; try subst r.
  - left. repeat split; reflexivity.
  - left. repeat split; reflexivity.
  - left. repeat split; reflexivity.
  - eapply optimise_failed in Eo; auto; [|exact (refined_self _ _ _ (refinement_refined _ _ _ _ _ _ Ec))].
    destruct Eo as [[_ (A & B & D & E & F & G)]|(A & B & D & E & F & G)]; [right|left]; (split; [exact A|]; split; [exact B|]; split; [exact D|]; split; [exact E|]; split; [exact F|exact G]).
Qed.

(** a scenario without clean events or without clean non-events: no prebin survives *)
Lemma class_missing e d s0 pb s b : refined_s (map (scen_data (l_sp e)) (sd_X d)) s0 pb -> In s (sd_X d) ->
  (forall c, In c (scen_data (l_sp e) s) -> c0 c <> b) -> mp_splits pb = [].
Proof.
  intros R Hs Hc. destruct (mp_splits pb) as [|z l] eqn:E; [reflexivity|]. exfalso.
  destruct (refined_clean _ _ _ (scen_data (l_sp e) s) R) with (b := b) as (c & H1 & H2); [congruence|apply in_map; exact Hs|]. exact (Hc c H1 H2).
Qed.

(** * Clean records *)
Lemma clean_records_spec sp s : length (fst s) = length (snd s) ->
  (forall v, In v (map num (x_clean (scen_split sp s))) <-> clean_value sp s v) /\
  (forall c, In c (scen_data sp s) <-> exists v y, c = {| cx := v; c0 := y_is0 y; cw := 1 |} /\ In (XNum v, y) (combine (fst s) (snd s)) /\ y <> YNaN /\ ~ In (XNum v) (flat_codes sp)).
Proof.
  intros L. destruct s as [xs ys]. cbn [fst snd] in *.
  assert (P : forall v y w, In (v, y, w) (filter (fun r => negb (miss_b r) && negb (spec_b sp r)) (rows xs ys (repeat 1 (length xs)))) <->
                            exists z, v = XNum z /\ w = 1 /\ In (XNum z, y) (combine xs ys) /\ y <> YNaN /\ ~ In (XNum z) (flat_codes sp)).
  { intros v y w. rewrite filter_In, andb_true_iff, !negb_true_iff. unfold miss_b. rewrite orb_false_iff. rewrite flat_codes_spec. cbn [row_x row_y fst snd].
    assert (I : In (v, y, w) (rows xs ys (repeat 1 (length xs))) <-> In (v, y) (combine xs ys) /\ w = 1).
    { unfold rows. clear -L. revert ys L. induction xs as [|x xs IH]; intros [|y0 ys] L; try discriminate; cbn [combine length repeat In]; [tauto|]. cbn in L.
      assert (L' : length xs = length ys) by lia. rewrite (IH ys L'). split.
      - intros [A|A]; [injection A as <- <- <-; auto|tauto].
      - intros [[A|A] ->]; [injection A as <- <-; auto|auto]. }
    unfold row_x, row_y. cbn [fst snd]. rewrite I. split.
    - intros ((A & ->) & (B & C) & D). destruct v as [|z]; [discriminate|]. exists z. split; [reflexivity|]. split; [reflexivity|]. split; [exact A|]. split; [intros ->; discriminate|].
      intros K. apply isin_In in K. congruence.
    - intros (z & -> & -> & A & B & C). split; [split; [exact A|reflexivity]|]. split; [split; [reflexivity|destruct y; [congruence|reflexivity|reflexivity]]|].
      destruct (isin (flat_codes sp) (XNum z)) eqn:E; [apply isin_In in E; contradiction|reflexivity]. }
  unfold scen_data, scen_split. cbn [fst snd]. rewrite split_masks_filter by (rewrite ?repeat_length; auto).
  unfold out_of, to_csamples. cbn [x_clean y_clean sw_clean].
  set (l := filter _ _) in *. clearbody l. split.
  - intros v. rewrite map_map, in_map_iff. split.
    + intros (((x & y) & w) & <- & H). apply P in H. destruct H as (z & -> & _ & A & B & C). exists y. auto.
    + intros (y & A & B & C). exists (XNum v, y, 1). split; [reflexivity|]. apply P. exists v. auto.
  - intros c. assert (E : map2 (fun (xy : xval * yval) w => {| cx := num (fst xy); c0 := y_is0 (snd xy); cw := w |}) (combine (map row_x l) (map row_y l)) (map row_w l)
                          = map (fun r => {| cx := num (row_x r); c0 := y_is0 (row_y r); cw := row_w r |}) l).
    { clear. induction l as [|r l IH]; [reflexivity|]. cbn [map combine map2]. now rewrite IH. }
    rewrite E, in_map_iff. split.
    + intros (((x & y) & w) & <- & H). apply P in H. destruct H as (z & -> & -> & A & B & C). exists z, y. auto.
    + intros (v & y & -> & A & B & C). exists (XNum v, y, 1). split; [reflexivity|]. apply P. exists v. auto.
Qed.

(** smallest and largest values *)
Lemma zmin_least l : l <> [] -> least (fun v => In v l) (zmin l).
Proof.
  destruct l as [|a l]; [congruence|]. intros _. unfold zmin, least.
  assert (G : forall l a, (fold_left Z.min l a = a \/ In (fold_left Z.min l a) l) /\ fold_left Z.min l a <= a /\ forall v, In v l -> fold_left Z.min l a <= v).
  { clear. induction l as [|b l IH]; intros a; cbn [fold_left]; [split; [auto|split; [lia|intros v []]]|]. destruct (IH (Z.min a b)) as (A & B & C). split; [|split; [lia|]].
    - destruct A as [A|A]; [|right; now right]. destruct (Z.min_spec a b) as [[_ E]|[_ E]]; rewrite E in *; [left; exact A|right; left; congruence].
    - intros v [<-|Hv]; [lia|auto]. }
  destruct (G l a) as (A & B & C). split; [destruct A as [A|A]; [left; congruence|right; exact A]|]. intros v [<-|Hv]; auto.
Qed.
Lemma zmax_greatest l : l <> [] -> greatest (fun v => In v l) (zmax l).
Proof.
  destruct l as [|a l]; [congruence|]. intros _. unfold zmax, greatest.
  assert (G : forall l a, (fold_left Z.max l a = a \/ In (fold_left Z.max l a) l) /\ a <= fold_left Z.max l a /\ forall v, In v l -> v <= fold_left Z.max l a).
  { clear. induction l as [|b l IH]; intros a; cbn [fold_left]; [split; [auto|split; [lia|intros v []]]|]. destruct (IH (Z.max a b)) as (A & B & C). split; [|split; [lia|]].
    - destruct A as [A|A]; [|right; now right]. destruct (Z.max_spec a b) as [[_ E]|[_ E]]; rewrite E in *; [right; left; congruence|left; exact A].
    - intros v [<-|Hv]; [lia|auto]. }
  destruct (G l a) as (A & B & C). split; [destruct A as [A|A]; [left; congruence|right; exact A]|]. intros v [<-|Hv]; auto.
Qed.
Lemma least_ext (P Q : Z -> Prop) m : (forall v, P v <-> Q v) -> least P m -> least Q m.
Proof. intros H [A B]. split; [now apply H|]. intros v Hv. apply B. now apply H. Qed.
Lemma greatest_ext (P Q : Z -> Prop) m : (forall v, P v <-> Q v) -> greatest P m -> greatest Q m.
Proof. intros H [A B]. split; [now apply H|]. intros v Hv. apply B. now apply H. Qed.
Lemma pick_ltb l : forall m, let r := fst (pick Z.ltb m l) in (r = fst m \/ In r (map fst l)) /\ r <= fst m /\ forall v, In v (map fst l) -> r <= v.
Proof.
  induction l as [|[a i] l IH]; intros m; cbn [pick map fst]; [split; [auto|split; [lia|intros v []]]|].
  destruct (a <? fst m) eqn:E; [apply Z.ltb_lt in E|apply Z.ltb_ge in E].
  - destruct (IH (a, i)) as (A & B & C). cbn [fst] in *. split; [destruct A as [A|A]; right; [now left|now right]|]. split; [lia|]. intros v [<-|Hv]; auto.
  - destruct (IH m) as (A & B & C). split; [destruct A as [A|A]; [now left|right; now right]|]. split; [lia|]. intros v [<-|Hv]; [lia|auto].
Qed.
Lemma pick_gtb l : forall m, let r := fst (pick Z.gtb m l) in (r = fst m \/ In r (map fst l)) /\ fst m <= r /\ forall v, In v (map fst l) -> v <= r.
Proof.
  induction l as [|[a i] l IH]; intros m; cbn [pick map fst]; [split; [auto|split; [lia|intros v []]]|].
  destruct (a >? fst m) eqn:E; rewrite Z.gtb_ltb in E; [apply Z.ltb_lt in E|apply Z.ltb_ge in E].
  - destruct (IH (a, i)) as (A & B & C). cbn [fst] in *. split; [destruct A as [A|A]; right; [now left|now right]|]. split; [lia|]. intros v [<-|Hv]; auto.
  - destruct (IH m) as (A & B & C). split; [destruct A as [A|A]; [now left|right; now right]|]. split; [lia|]. intros v [<-|Hv]; [lia|auto].
Qed.
Lemma extreme_least l : l <> [] -> least (fun v => In v (map fst l)) (fst (extreme Z.ltb l)).
Proof.
  destruct l as [|t l]; [congruence|]. intros _. unfold extreme. destruct (pick_ltb l t) as (A & B & C). split; [cbn [map]; destruct A as [->|A]; [now left|now right]|].
  intros v [<-|Hv]; auto.
Qed.
Lemma extreme_greatest l : l <> [] -> greatest (fun v => In v (map fst l)) (fst (extreme Z.gtb l)).
Proof.
  destruct l as [|t l]; [congruence|]. intros _. unfold extreme. destruct (pick_gtb l t) as (A & B & C). split; [cbn [map]; destruct A as [->|A]; [now left|now right]|].
  intros v [<-|Hv]; auto.
Qed.
