(** Scenario-based binning: refinement, inversion of the fit, and every scenario seen as a fit of its own. *)
From Coq Require Import List ZArith Bool Arith Lia QArith Qround Sorting.
From Verif Require Import Model.Arr Model.Core Model.CP Model.Multi Model.Lifecycle Model.Scenario
  Spec.CoreSpec Spec.CPSpec Spec.CPFitSpec Spec.ScenarioSpec
  Proofs.ArrP Proofs.CoreP Proofs.FitP Proofs.CoreFinal Proofs.CPP Proofs.CPC Proofs.CPTable Proofs.CPFinal
  Proofs.MultiP Proofs.MultiFinal Proofs.LifeR.
Import ListNotations.
Open Scope Z_scope.

Lemma scen_cols_len splits datas c : In c (scen_cols splits datas) ->
  length (fst c) = S (length splits) /\ length (snd c) = S (length splits).
Proof. unfold scen_cols. intros H. apply in_map_iff in H. destruct H as (d & <- & _). cbn [fst snd]. now rewrite !length_counts. Qed.

Record refined_s (datas : list (list csample)) (splits : list Z) (pb : mprebins) : Prop := {
  rs_sub : subseq (mp_splits pb) splits;
  rs_cols : mp_splits pb <> [] -> mp_cols pb = scen_cols (mp_splits pb) datas;
  rs_nz : forall c v, In c (mp_cols pb) -> In v (fst c) \/ In v (snd c) -> v <> 0 }.

Lemma compute_prebins_s_step fuel datas fixed user nref s r :
  compute_prebins_s (S fuel) datas fixed user nref (s :: r) =
  let splits := s :: r in
  let mask := remove_mask_m (S (length splits)) (scen_cols splits datas) in
  let ms := mask_splits mask in
  if any mask then
    match fixed with
    | Some f => if any (mand f ms) then Some (Err ValueError)
                else compute_prebins_s fuel datas (Some (select (mnot ms) f))
                       (option_map (select (mnot ms)) user) (S nref) (select (mnot ms) splits)
    | None => compute_prebins_s fuel datas None user (S nref) (select (mnot ms) splits)
    end
  else Some (Ok {| mp_splits := splits; mp_cols := scen_cols splits datas; mp_fixed := fixed;
                   mp_user := user; mp_nref := nref |}).
Proof. reflexivity. Qed.
Lemma ms_shorter_s datas s r :
  let mask := remove_mask_m (S (length (s :: r))) (scen_cols (s :: r) datas) in
  any mask = true -> (length (select (mnot (mask_splits mask)) (s :: r)) < length (s :: r))%nat.
Proof.
  intros mask H. assert (L : length mask = S (length (s :: r))) by (apply remove_mask_m_len; intros c; apply scen_cols_len).
  apply select_mnot_shorter.
  - rewrite length_mask_splits by (rewrite L; cbn; lia). rewrite L. cbn. lia.
  - apply any_mask_splits; [rewrite L; cbn; lia|exact H].
Qed.
Lemma compute_prebins_s_terminates fuel datas : forall fixed user nref splits, (length splits < fuel)%nat ->
  compute_prebins_s fuel datas fixed user nref splits <> None.
Proof.
  induction fuel as [|fuel IH]; intros fixed user nref splits Hf; [lia|].
  destruct splits as [|s r]; [discriminate|]. rewrite compute_prebins_s_step. cbv zeta.
  match goal with |- context [if any ?m then _ else _] => destruct (any m) eqn:E end; [|discriminate].
  pose proof (ms_shorter_s datas s r E). destruct fixed as [f|].
  - destruct (any (mand f _)); [discriminate|]. apply IH. lia.
  - apply IH. lia.
Qed.
Lemma compute_prebins_s_refined fuel datas : forall fixed user nref splits pb,
  compute_prebins_s fuel datas fixed user nref splits = Some (Ok pb) -> refined_s datas splits pb.
Proof.
  induction fuel as [|fuel IH]; intros fixed user nref splits pb H; [discriminate|].
  destruct splits as [|s r].
  - injection H as <-. constructor; cbn [mp_splits mp_cols]; [constructor|congruence|intros c v []].
  - rewrite compute_prebins_s_step in H. cbv zeta in H.
    match type of H with context [if any ?m then _ else _] => destruct (any m) eqn:E end.
    + assert (G : forall fx us m, compute_prebins_s fuel datas fx us (S nref) (select m (s :: r)) = Some (Ok pb) ->
        refined_s datas (s :: r) pb).
      { intros fx us m H1. apply IH in H1. destruct H1 as [A B C]. constructor; auto.
        eapply subseq_trans; [exact A|apply select_subseq]. }
      destruct fixed as [f|]; [destruct (any (mand f _)); [discriminate|]|]; eapply G; exact H.
    + injection H as <-. constructor; cbn [mp_splits mp_cols]; [apply subseq_refl|reflexivity|].
      intros c v Hc Hv. rewrite remove_mask_m_any in E by (intros c'; apply scen_cols_len).
      assert (Ec : any (col_mask c) = false).
      { destruct (any (col_mask c)) eqn:Ec; [|reflexivity]. rewrite <- E. symmetry. apply existsb_exists. eauto. }
      destruct (scen_cols_len _ _ _ Hc) as [L1 L2]. destruct c as [a b]. cbn [fst snd] in *.
      eapply (col_mask_false a b); eauto; lia.
Qed.

(** * Inversion of the fit *)
Definition fit_splits0 (e : sb_env) (o : sb_obj) (X : list scen) : list Z :=
  match sb_user o with Some u => sorted_splits u | None => se_prebin e (concat (map (scen_data (se_sp e)) X)) end.
Record s_fit (e : sb_env) (o : sb_obj) (X : list scen) (w : option (list Q)) (f : sfitted) : Prop := {
  ss_X : X <> [];
  ss_refined : refined_s (map (scen_data (se_sp e)) X) (map (se_rnd e) (fit_splits0 e o X)) (sf_prebins f);
  ss_ne : mp_splits (sf_prebins f) <> [];
  ss_sol : sf_solution f = se_solver e (sf_problem f);
  ss_splits : sf_splits f = select (init (sf_solution f)) (mp_splits (sf_prebins f));
  ss_cols : pr_cols (sf_problem f) = mp_cols (sf_prebins f);
  ss_lens : pr_lens (sf_problem f) = map (fun s => Z.of_nat (length (fst s))) X;
  ss_w : match w with Some v => length v = length X /\ int_weights v = Some (pr_w (sf_problem f))
                    | None => pr_w (sf_problem f) = repeat 1 (length X) end;
  ss_fixed : pr_fixed (sf_problem f) = match sb_user o with
               | Some u => option_map (fun nf => permuted u (snd nf)) (sb_fixed o)
               | None => None end;
  ss_tables : all_some (map2 (scen_table (se_sp e) (sf_solution f)) X (mp_cols (sf_prebins f))) = Some (sf_tables f);
  ss_nev : sf_nev f = add_tables (map fst (sf_tables f));
  ss_ev : sf_ev f = add_tables (map snd (sf_tables f)) }.

Lemma sb_fit_inv e o X w o' f : sb_fit e o X w = (o', Some (Ok f)) -> s_fit e o X w f.
Proof.
  unfold sb_fit. intros H. destruct (sb_params_ok o) eqn:Epo; cbn [negb] in H; [|discriminate].
  destruct (match w with Some v => negb (length v =? length X)%nat | None => false end) eqn:Ew; [discriminate|].
  destruct X as [|s0 X']; [discriminate|]. set (X := s0 :: X') in *.
  match type of H with context [match ?p with Some _ => _ | None => _ end] => destruct p as [[splits0 fixed1]|] eqn:Epre end; [|discriminate].
  assert (E0 : splits0 = fit_splits0 e o X /\ option_map snd fixed1 = match sb_user o with
               | Some u => option_map (fun nf => permuted u (snd nf)) (sb_fixed o) | None => None end).
  { unfold fit_splits0. destruct (sb_user o) as [u|] eqn:Eu.
    - destruct (_ || _); [discriminate|]. injection Epre as <- <-. split; [reflexivity|]. now destruct (sb_fixed o).
    - injection Epre as <- <-. split; [reflexivity|]. unfold sb_params_ok in Epo. rewrite Eu in Epo. destruct (sb_fixed o) as [[np fx]|]; [discriminate|reflexivity]. }
  destruct E0 as [-> E1].
  destruct (compute_prebins_s _ _ _ _ _ _) as [[pb|x]|] eqn:Ec; try discriminate.
  apply compute_prebins_s_refined in Ec.
  destruct (mp_splits pb) as [|q qs] eqn:Es; [discriminate|].
  destruct (match w with Some v => int_weights v | None => Some (repeat 1 (length X)) end) as [wi|] eqn:Ewi; [|discriminate].
  match type of H with context [match ?p with Some _ => _ | None => _ end] => destruct p as [ts|] eqn:Ets end; [|discriminate].
  injection H as <- <-. constructor; cbn [sf_prebins sf_splits sf_problem sf_solution sf_tables sf_nev sf_ev pr_cols pr_lens pr_w pr_fixed]; try rewrite Es; try reflexivity; try assumption.
  - discriminate.
  - discriminate.
  - destruct w as [v|]; [|injection Ewi as <-; reflexivity]. apply negb_false_iff in Ew. split; [lia|exact Ewi].
Qed.

(** * A scenario as a fit of its own *)
Lemma target_info_ones : forall ys sw, length ys = length sw -> (forall w, In w sw -> w = 1) ->
  target_info_samples ys sw = target_info_samples ys [].
Proof.
  intros ys sw Hl H1. destruct ys as [|y ys]; [reflexivity|]. destruct sw as [|w sw]; [reflexivity|].
  cbn [target_info_samples]. set (l := y :: ys) in *. set (v := w :: sw) in *. clearbody l v.
  assert (G : forall m (v : list Z), length m = length v -> (forall w, In w v -> w = 1) -> zsum (select m v) = Z.of_nat (count_true m)).
  { clear. induction m as [|b m IH]; intros [|w v] Hl H1; cbn in Hl; try discriminate; [reflexivity|].
    assert (E : zsum (select m v) = Z.of_nat (count_true m)) by (apply IH; [lia|intros; apply H1; now right]).
    assert (Ew : w = 1) by (apply H1; now left). subst w. destruct b; unfold count_true in *; cbn [select zsum filter length] in *; lia. }
  f_equal; apply G; auto; [|unfold mnot]; rewrite ?map_length; exact Hl.
Qed.
Lemma select_ones {A} m (l : list A) : (forall w, In w l -> True) -> forall n w, In w (select m (repeat 1 n)) -> w = 1.
Proof. intros _ n w H. apply (subseq_In _ _ _ (select_subseq m (repeat 1 n))) in H. now apply repeat_spec in H. Qed.

Lemma select_same_length {A B} m : forall (a : list A) (b : list B), length a = length b -> length (select m a) = length (select m b).
Proof. induction m as [|x m IH]; intros [|p a] [|q b] H; cbn in *; try discriminate; try reflexivity. destruct x; cbn; rewrite (IH a b); lia. Qed.
Lemma nth_error_map2 {A B C} (h : A -> B -> C) : forall a b i x y, nth_error a i = Some x -> nth_error b i = Some y -> nth_error (map2 h a b) i = Some (h x y).
Proof. induction a as [|p a IH]; intros [|q b] [|i] x y Ha Hb; cbn in *; try discriminate; [congruence|eauto]. Qed.

Definition answer (n : nat) (sol : list bool) : list Z -> list Z -> list bool :=
  fun a _ => if (length a =? n)%nat then sol else repeat false (length a - 1) ++ [true].
Lemma answer_ok n sol : length sol = n -> last sol false = true -> solver_ok (answer n sol).
Proof.
  intros Hl Hs a b Hab Ha. unfold answer. destruct (Nat.eqb_spec (length a) n) as [E|E]; [split; [lia|exact Hs]|].
  split; [rewrite app_length, repeat_length; cbn; lia|apply last_last].
Qed.

Lemma compute_prebins_nopure data s r :
  (forall v, In v (counts 1 (digitize (s :: r)) true data (S (length (s :: r)))) \/ In v (counts 1 (digitize (s :: r)) false data (S (length (s :: r)))) -> v <> 0) ->
  forall fuel, compute_prebins (S fuel) 1 IV data None None 0 false (s :: r) =
  Some (Ok {| pb_splits := s :: r; pb_nev := counts 1 (digitize (s :: r)) true data (S (length (s :: r)));
              pb_ev := counts 1 (digitize (s :: r)) false data (S (length (s :: r)));
              pb_fixed := None; pb_user := None; pb_nref := 0; pb_flag := false |}).
Proof.
  intros H fuel. cbn [compute_prebins]. set (a := counts _ _ true _ _) in *. set (b := counts _ _ false _ _) in *.
  replace (any (map2 (fun a b : Z => (a =? 0) || (b =? 0)) a b)) with false; [reflexivity|].
  symmetry. apply any_false_iff. intros x Hx. apply map2_In in Hx. destruct Hx as (u & v & Hu & Hv & ->).
  pose proof (H u (or_introl Hu)). pose proof (H v (or_intror Hv)). apply orb_false_iff. split; apply Z.eqb_neq; assumption.
Qed.

Lemma scenario_as_fit e o X w f s xs ys : sb_env_ok e -> s_fit e o X w f -> (forall s, In s X -> scen_valid s) ->
  nth_error X s = Some (xs, ys) ->
  let n := S (length (mp_splits (sf_prebins f))) in
  let sw := repeat 1 (length xs) in
  exists fs c, nth_error (sf_tables f) s = Some (f_nev fs, f_ev fs) /\
    nth_error (pr_cols (sf_problem f)) s = Some c /\
    length (sf_solution f) = n /\ last (sf_solution f) false = true /\
    fit_numerical 1 IV (answer n (sf_solution f)) (se_sp e) None None (mp_splits (sf_prebins f)) xs ys sw = Some (Ok fs) /\
    f_splits fs = sf_splits f /\ f_solution fs = sf_solution f /\
    pb_nev (f_prebins fs) = fst c /\ pb_ev (f_prebins fs) = snd c /\ length (fst c) = n /\ length (snd c) = n.
Proof.
  intros K F HV Hs n sw. pose proof (ss_refined _ _ _ _ _ F) as R. pose proof (ss_ne _ _ _ _ _ F) as Hne.
  set (pb := sf_prebins f) in *. pose proof (rs_cols _ _ _ R Hne) as Ecols.
  assert (Hsol : length (sf_solution f) = n /\ last (sf_solution f) false = true).
  { rewrite (ss_sol _ _ _ _ _ F). apply (ek_solver _ K).
    - unfold n. destruct (mp_splits pb); [congruence|cbn; lia].
    - rewrite (ss_cols _ _ _ _ _ F). fold pb. rewrite Ecols. unfold scen_cols. destruct X; [destruct s; discriminate|discriminate].
    - intros c. rewrite (ss_cols _ _ _ _ _ F). fold pb. rewrite Ecols. apply scen_cols_len. }
  set (d := scen_data (se_sp e) (xs, ys)).
  assert (Ec : nth_error (mp_cols pb) s = Some (counts 1 (digitize (mp_splits pb)) true d n, counts 1 (digitize (mp_splits pb)) false d n)).
  { rewrite Ecols. unfold scen_cols. rewrite !nth_error_map, Hs. reflexivity. }
  pose proof (ss_tables _ _ _ _ _ F) as T. fold pb in T. apply all_some_nth in T. destruct T as [LT T].
  assert (LX : length X = length (mp_cols pb)) by (rewrite Ecols; unfold scen_cols; now rewrite !map_length).
  assert (Hlt : (s < length (sf_tables f))%nat).
  { rewrite LT, length_map2 by exact LX. apply nth_error_Some. congruence. }
  destruct (nth_error (sf_tables f) s) as [[ta tb]|] eqn:Et; [|apply nth_error_None in Et; lia].
  pose proof (T _ _ Et) as Tm. rewrite (nth_error_map2 _ X (mp_cols pb) s (xs, ys) _ Hs Ec) in Tm. injection Tm as Tm.
  assert (HV' : scen_valid (xs, ys)) by (apply HV; eapply nth_error_In; exact Hs). destruct HV' as [Hl HY]. cbn [fst snd] in Hl, HY.
  pose proof (ek_sp _ K) as Ksp.
  set (so := scen_split (se_sp e) (xs, ys)) in *.
  assert (Hones : (forall w, In w (sw_special so) -> w = 1) /\ length (y_special so) = length (sw_special so) /\
                  (forall w, In w (sw_missing so) -> w = 1) /\ length (y_missing so) = length (sw_missing so)).
  { assert (Lm : length (map2 (fun x y => orb x y) (map x_isnull xs) (map y_isnull ys)) = length xs) by (rewrite length_map2; rewrite !map_length; auto).
    unfold so, scen_split, split_masks. cbn [fst snd]. cbv zeta. destruct (se_sp e) as [|l|dd]; cbn [sw_special y_special sw_missing y_missing]; [| |destruct Ksp].
    - split; [intros ? []|]. split; [reflexivity|]. split; [apply (select_ones _ xs); auto|]. apply select_same_length. rewrite repeat_length. lia.
    - split; [apply (select_ones _ xs); auto|]. split; [apply select_same_length; rewrite repeat_length; lia|].
      split; [apply (select_ones _ xs); auto|]. apply select_same_length. rewrite repeat_length. lia. }
  destruct Hones as (O1 & O2 & O3 & O4).
  unfold scen_table in Tm. cbv zeta in Tm. fold so in Tm.
  rewrite <- (target_info_ones (y_special so) (sw_special so) O2 O1), <- (target_info_ones (y_missing so) (sw_missing so) O4 O3) in Tm. cbn [fst snd] in Tm.
  destruct (mp_splits pb) as [|q qs] eqn:Eq; [congruence|].
  assert (NZ : forall v, In v (counts 1 (digitize (q :: qs)) true d n) \/ In v (counts 1 (digitize (q :: qs)) false d n) -> v <> 0).
  { intros v Hv. eapply (rs_nz _ _ _ R); [eapply nth_error_In; exact Ec|exact Hv]. }
  destruct (bin_info_1 1 (sf_solution f) (counts 1 (digitize (q :: qs)) true d n) None _ _) as [a|] eqn:Ea; [|discriminate].
  destruct (bin_info_1 1 (sf_solution f) (counts 1 (digitize (q :: qs)) false d n) None _ _) as [b|] eqn:Eb; [|discriminate].
  injection Tm as -> ->.
  set (pbs := {| pb_splits := q :: qs; pb_nev := counts 1 (digitize (q :: qs)) true d n;
              pb_ev := counts 1 (digitize (q :: qs)) false d n;
              pb_fixed := None; pb_user := None; pb_nref := 0; pb_flag := false |}).
  exists {| f_splits := sf_splits f; f_solution := sf_solution f; f_nev := ta; f_ev := tb; f_nprebins := n; f_prebins := pbs |}.
  eexists. split; [reflexivity|]. split; [rewrite (ss_cols _ _ _ _ _ F); exact Ec|]. destruct Hsol as [Hsl Hsla]. split; [exact Hsl|]. split; [exact Hsla|].
  split; [|cbn [f_splits f_solution f_prebins pb_nev pb_ev pbs fst snd]; rewrite !length_counts; repeat (split; [reflexivity|]); reflexivity].
  unfold fit_numerical. fold sw. change (split_masks (se_sp e) xs ys sw) with so. change (to_csamples so) with d.
  rewrite compute_prebins_nopure by exact NZ. fold n. fold pbs.
  unfold finish_fit. cbv zeta. change (pb_nev pbs) with (counts 1 (digitize (q :: qs)) true d n). change (pb_ev pbs) with (counts 1 (digitize (q :: qs)) false d n).
  change (pb_splits pbs) with (q :: qs). rewrite length_counts.
  replace (n <=? 1)%nat with false by (symmetry; apply Nat.leb_gt; unfold n; cbn [length]; lia).
  unfold answer at 1 2 3 4. rewrite length_counts, Nat.eqb_refl.
  assert (ES : forall h : Z * Z -> Z, map h (target_info_special (se_sp e) (x_special so) (y_special so) (sw_special so)) = [h (target_info_samples (y_special so) (sw_special so))])
    by (intros h; destruct (se_sp e) as [|l|dd]; [reflexivity|reflexivity|destruct Ksp]).
  rewrite !ES, Ea, Eb. unfold optimal_splits.
  replace (n <=? 1)%nat with false by (symmetry; apply Nat.leb_gt; unfold n; cbn [length]; lia).
  rewrite (ss_splits _ _ _ _ _ F). fold pb. rewrite Eq. reflexivity.
Qed.
