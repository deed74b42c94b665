(** Failed refits, json files, and the link with the one-shot fit of Core.v. *)
From Coq Require Import List ZArith QArith Bool Arith Lia Sorting Permutation.
From Verif Require Import Model.Arr Model.Core Model.Lifecycle Spec.CoreSpec Spec.LifecycleSpec
  Proofs.ArrP Proofs.CoreP Proofs.FitP Proofs.CoreFinal Proofs.LifeP Proofs.LifeQ.
Import ListNotations.
Open Scope Z_scope.

(** ** Link with Core *)
Lemma prebins_core wu d data fuel : forall u fx n b s ps s' nev ev,
  prebins_st fuel wu d data (mkP u fx n b) s = Some (ps, Ok (s', nev, ev)) ->
  compute_prebins fuel wu d data (option_map snd fx) (option_map snd u) n b s =
    Some (Ok {| pb_splits := s'; pb_nev := nev; pb_ev := ev; pb_fixed := option_map snd (p_fixed ps);
                pb_user := option_map snd (p_user ps); pb_nref := p_nref ps; pb_flag := p_flag ps |}).
Proof.
  induction fuel as [|fuel IH]; intros u fx n b s ps s' nev ev H; [discriminate|].
  destruct s as [|x s]; [injection H as <- <- <- <-; reflexivity|].
  revert H. cbn [prebins_st compute_prebins]. cbv zeta. cbn [p_fixed p_user p_nref p_flag].
  destruct (any (map2 _ _ _)) eqn:M.
  - destruct (refines d) eqn:RD.
    + destruct fx as [[np f]|]; cbn [option_map snd].
      * destruct (any (mand f _)); [discriminate|]. intros H. apply IH in H. cbn [option_map snd] in H. rewrite <- H.
        destruct u as [[c u]|]; reflexivity.
      * intros H. apply IH in H. exact H.
    + intros H. injection H as <- <- <- <-. reflexivity.
  - intros H. injection H as <- <- <- <-. reflexivity.
Qed.
Lemma compute_prebins_shape wu d data fuel : forall fx u n b s pb,
  compute_prebins fuel wu d data fx u n b s = Some (Ok pb) ->
  (pb_splits pb = [] /\ pb_nev pb = [] /\ pb_ev pb = []) \/
  (pb_splits pb <> [] /\ length (pb_nev pb) = S (length (pb_splits pb)) /\ length (pb_ev pb) = S (length (pb_splits pb))).
Proof.
  induction fuel as [|fuel IH]; intros fx u n b s pb H; [discriminate|].
  destruct s as [|x s]; [injection H as <-; left; repeat split|].
  revert H. cbn [compute_prebins]. cbv zeta.
  assert (B : forall fl nr, pb = {| pb_splits := x :: s; pb_nev := counts wu (digitize (x :: s)) true data (S (length (x :: s)));
      pb_ev := counts wu (digitize (x :: s)) false data (S (length (x :: s))); pb_fixed := fx; pb_user := u; pb_nref := nr; pb_flag := fl |} ->
    (pb_splits pb = [] /\ pb_nev pb = [] /\ pb_ev pb = []) \/
    (pb_splits pb <> [] /\ length (pb_nev pb) = S (length (pb_splits pb)) /\ length (pb_ev pb) = S (length (pb_splits pb)))).
  { intros fl nr ->. right. cbn [pb_splits pb_nev pb_ev]. split; [discriminate|].
    unfold counts. rewrite !map_length, !seq_length. split; reflexivity. }
  destruct (any (map2 _ _ _)).
  - destruct (refines d).
    + destruct fx as [f|]; [destruct (any (mand f _)); [discriminate|]|]; apply IH.
    + intros H. injection H as H. symmetry in H. exact (B _ _ H).
  - intros H. injection H as H. symmetry in H. exact (B _ _ H).
Qed.
(** Core's initial counter and flag do not matter for the rest *)
Lemma compute_prebins_nref wu d data fuel : forall fx u n b n' b' s pb,
  compute_prebins fuel wu d data fx u n b s = Some (Ok pb) ->
  exists pb', compute_prebins fuel wu d data fx u n' b' s = Some (Ok pb') /\
    pb_splits pb' = pb_splits pb /\ pb_nev pb' = pb_nev pb /\ pb_ev pb' = pb_ev pb.
Proof.
  induction fuel as [|fuel IH]; intros fx u n b n' b' s pb H; [discriminate|].
  destruct s as [|x s]; [injection H as <-; eexists; repeat split|].
  revert H. cbn [compute_prebins]. cbv zeta. destruct (any (map2 _ _ _)).
  - destruct (refines d).
    + destruct fx as [f|]; [destruct (any (mand f _)); [discriminate|]|]; apply IH.
    + intros H. injection H as <-. eexists. repeat split.
  - intros H. injection H as <-. eexists. repeat split.
Qed.

(** the optimiser as Core's solver *)
Definition core_solver (e : env) (f : option (list bool)) (b : bool) (n : nat) (nev ev : list Z) : list bool :=
  match e_solver e f b n nev ev with Ok (_, s) => s | Err _ => repeat true (length nev) end.
Lemma core_solver_ok e f b n : answers_fit e -> solver_ok (core_solver e f b n).
Proof.
  intros A x y L N. unfold core_solver. destruct (e_solver e f b n x y) as [[st s]|k] eqn:E.
  - exact (A _ _ _ _ _ _ _ E).
  - rewrite repeat_length. split; [reflexivity|]. destruct (length x) as [|m]; [lia|]. clear. induction m; [reflexivity|exact IHm].
Qed.

Lemma post_core e x so o sol pb c s o' fnev : post e x so o sol (pb_splits pb) (pb_nev pb) (pb_ev pb) c s = (o', Ok tt) ->
  o_spec o = Some (target_info_special (e_special e) (x_special so) (y_special so) (sw_special so)) ->
  o_miss o = Some (target_info_samples (y_missing so) (sw_missing so)) ->
  fnev = length (pb_nev pb) ->
  forall solver, sol = (if (fnev <=? 1)%nat then repeat false (length (pb_splits pb)) else solver (pb_nev pb) (pb_ev pb)) ->
  s = optimal_splits fnev (pb_splits pb) sol ->
  exists f, finish_fit (e_wu e) solver (e_special e) so pb = Ok f /\ f_splits f = s /\
    o_counts o' = Some (f_nev f, f_ev f).
Proof.
  intros H S M -> solver Hsol Hs. unfold post in H. rewrite S, M in H. unfold finish_fit. rewrite <- Hsol, <- Hs.
  destruct (bin_info_1 _ _ _ _ _ _) as [a|]; [|discriminate].
  destruct (bin_info_1 _ _ _ _ _ _) as [b|]; [|discriminate].
  destruct (map num (x_clean so)); [discriminate|]. injection H as <-.
  eexists. split; [reflexivity|]. split; reflexivity.
Qed.

Lemma refine_core e x o s0 o' : refine_and_optimise e x (split_masks (e_special e) (d_x x) (d_y x) (d_w x)) o s0 = (o', Ok tt) ->
  exists sf sb sn f, fit_numerical (e_wu e) (e_div e) (core_solver e sf sb sn) (e_special e)
      (option_map snd (o_fixed o)) (option_map snd (o_user o)) s0 (d_x x) (d_y x) (d_w x) = Some (Ok f) /\
    (exists c, o_splits o' = Some (c, f_splits f)) /\ o_counts o' = Some (f_nev f, f_ev f).
Proof.
  unfold refine_and_optimise. set (so := split_masks _ _ _ _).
  destruct (prebins_st _ _ _ _ _ _) as [[ps q]|] eqn:E; [|discriminate].
  destruct q as [[[s nev] ev]|k]; [|discriminate].
  apply prebins_core in E. destruct (compute_prebins_nref _ _ _ _ _ _ _ _ 0%nat false _ _ E) as (pb' & E' & S' & N' & V').
  cbn [pb_splits pb_nev pb_ev] in S', N', V'. subst s nev ev.
  intros H. unfold optimise in H.
  set (o2 := mkO _ _ _ _ (Some _) (Some _) _ _ _ _ _) in H.
  exists (option_map snd (o_fixed o2)), (negb (refines (e_div e)) && o_flag o2), (length (d_x x)).
  unfold fit_numerical. cbv zeta. fold so. rewrite E'.
  destruct (length (pb_nev pb') <=? 1)%nat eqn:LE.
  - pose proof H as H'. apply post_table in H'.
    destruct (post_core e x so (set_result o2 0 NdArray (pb_splits pb')) (repeat false (length (pb_splits pb'))) pb' NdArray
      (pb_splits pb') o' _ H eq_refl eq_refl eq_refl
      (core_solver e (option_map snd (o_fixed o2)) (negb (refines (e_div e)) && o_flag o2) (length (d_x x)))) as (f & F & Fs & Fc).
    + rewrite LE. reflexivity.
    + unfold optimal_splits. rewrite LE. reflexivity.
    + exists f. rewrite F. split; [reflexivity|]. split; [|exact Fc]. exists NdArray. rewrite Fs.
      destruct H' as (t & a & b & P). decompose [and] P. assumption.
  - destruct (e_solver _ _ _ _ _ _) as [[st sol]|k] eqn:SV; [|discriminate].
    pose proof H as H'. apply post_table in H'.
    destruct (post_core e x so (set_result o2 st NdArray (select (init sol) (pb_splits pb'))) sol pb' NdArray
      (select (init sol) (pb_splits pb')) o' _ H eq_refl eq_refl eq_refl
      (core_solver e (option_map snd (o_fixed o2)) (negb (refines (e_div e)) && o_flag o2) (length (d_x x)))) as (f & F & Fs & Fc).
    + rewrite LE. unfold core_solver. rewrite SV. reflexivity.
    + unfold optimal_splits. rewrite LE. reflexivity.
    + exists f. rewrite F. split; [reflexivity|]. split; [|exact Fc]. exists NdArray. rewrite Fs.
      destruct H' as (t & a & b & P). decompose [and] P. assumption.
Qed.

(** sorting *)
Lemma insert_key_sorted {A} (x : Z * A) l : StronglySorted (fun a b => fst a <= fst b) l ->
  StronglySorted (fun a b => fst a <= fst b) (insert_by_key x l).
Proof.
  induction l as [|y r IH]; intros H; cbn [insert_by_key]; [repeat constructor|].
  inversion H as [|? ? Hr Hy]; subst. destruct (Z.leb_spec (fst x) (fst y)) as [L|L].
  - constructor; [exact H|]. constructor; [exact L|]. revert Hy. apply Forall_impl. intros a; lia.
  - constructor; [apply IH; exact Hr|]. rewrite Forall_forall in *. intros z Hz.
    assert (In z (x :: r)) as [->|I].
    { clear -Hz. induction r as [|w r IH]; cbn [insert_by_key] in Hz; [exact Hz|].
      destruct (fst x <=? fst w); [exact Hz|]. destruct Hz as [->|Hz]; [right; left; reflexivity|].
      destruct (IH Hz) as [->|I]; [left; reflexivity|right; right; exact I]. }
    + lia.
    + apply Hy. exact I.
Qed.
Lemma sort_key_sorted {A} (l : list (Z * A)) : StronglySorted (fun a b => fst a <= fst b) (sort_by_key l).
Proof. induction l as [|x r IH]; [constructor|]. apply insert_key_sorted. exact IH. Qed.
Lemma sorted_splits_nondecr u : nondecreasing (sorted_splits u).
Proof.
  unfold sorted_splits, nondecreasing. generalize (sort_key_sorted (map (fun s : Z => (s, tt)) u)).
  generalize (sort_by_key (map (fun s : Z => (s, tt)) u)). induction l as [|x r IH]; intros H; [constructor|].
  inversion H as [|? ? Hr Hx]; subst. cbn [map]. constructor; [apply IH; exact Hr|].
  rewrite Forall_map. exact Hx.
Qed.

Lemma fit_core e x o o' : prebin_sorted e -> (forall c, o_user o <> Some (c, [])) -> fit e x o = (o', Ok tt) ->
  exists sf sb sn fx us s0 f, nondecreasing s0 /\
    fit_numerical (e_wu e) (e_div e) (core_solver e sf sb sn) (e_special e) fx us s0 (d_x x) (d_y x) (d_w x) = Some (Ok f) /\
    (exists c, o_splits o' = Some (c, f_splits f)) /\ o_counts o' = Some (f_nev f, f_ev f).
Proof.
  intros PS NU H. unfold fit in H. destruct (params_ok o); cbn [negb] in H; [|discriminate].
  destruct (o_user o) as [[c [|u us]]|] eqn:U.
  - destruct (NU c). reflexivity.
  - destruct (negb (distinct (u :: us))); [discriminate|]. apply refine_core in H.
    destruct H as (sf & sb & sn & f & F & S & C). exists sf, sb, sn. eexists _, _, _, f. split; [|split; [exact F|split; [exact S|exact C]]].
    apply sorted_splits_nondecr.
  - destruct (e_prebin e _) as [s0|k] eqn:PB; [|discriminate]. apply refine_core in H.
    destruct H as (sf & sb & sn & f & F & S & C). exists sf, sb, sn. eexists _, _, s0, f. split; [|split; [exact F|split; [exact S|exact C]]].
    exact (PS _ _ PB).
Qed.

Lemma C03_any e x o o1 : e_wu e = 1 -> answers_fit e -> prebin_sorted e ->
  (forall c, o_user o <> Some (c, [])) ->
  length (d_x x) = length (d_y x) -> length (d_x x) = length (d_w x) ->
  ~ In YNaN (d_y x) -> ~ In XNaN (flat_codes (e_special e)) -> sp_disjoint (e_special e) ->
  fit e x o = (o1, Ok tt) ->
  exists t, o_table o1 = Some t /\ o_splits o1 = Some (t_splits_c t, t_splits t) /\ o_counts o1 = Some (t_nev t, t_ev t) /\
  let n_rows := (S (length (t_splits t)) + n_special (e_special e) + 1)%nat in
  let weight_to := fun nonevent k => weight_of (fun r => Bool.eqb (y_is0 (row_y r)) nonevent &&
       match transform e o1 (Indices Empirical Empirical) [row_x r] with
       | Ok (AIndex [z]) => Z.eqb z (Z.of_nat k) | _ => false end) (rows (d_x x) (d_y x) (d_w x)) in
  length (t_nev t) = n_rows /\ length (t_ev t) = n_rows /\
  forall k, (k < n_rows)%nat ->
    nth_error (t_nev t) k = Some (weight_to true k) /\ nth_error (t_ev t) k = Some (weight_to false k).
Proof.
  intros W A PS NU L1 L2 NY NX SD H.
  destruct (fit_table e x o o1 H) as (t & a & b & s & c' & T & _ & _ & Ts & Tc & _ & _ & Ta & Tb & OC & _ & _ & _ & OF & OS & _).
  destruct (fit_core e x o o1 PS NU H) as (sf & sb & sn & fx & us & s0 & f & ND & F & [c FS] & FC).
  exists t. split; [exact T|]. rewrite Ts, Tc, Ta, Tb. split; [exact OS|]. split; [exact OC|].
  rewrite OS in FS. injection FS as -> ->. rewrite OC in FC. injection FC as -> ->.
  rewrite W in F.
  destruct (C03_table (e_div e) (core_solver e sf sb sn) (e_special e) fx us s0 _ _ _ f L1 L2 NY NX SD ND
    (core_solver_ok e sf sb sn A) F) as (R1 & R2 & R3).
  split; [exact R1|]. split; [exact R2|]. intros k Hk. destruct (R3 k Hk) as [K1 K2]. rewrite K1, K2.
  assert (E : forall cls l, weight_of (fun r : row => Bool.eqb (y_is0 (row_y r)) cls &&
       match transform_indices (f_splits f) (e_special e) Empirical Empirical (row_x r) with
       | Ok z => Z.eqb z (Z.of_nat k) | Err _ => false end) l =
     weight_of (fun r : row => Bool.eqb (y_is0 (row_y r)) cls &&
       match transform e o1 (Indices Empirical Empirical) [row_x r] with
       | Ok (AIndex [z]) => Z.eqb z (Z.of_nat k) | _ => false end) l).
  { intros cls l. induction l as [|r l IH]; [reflexivity|]. cbn [weight_of]. rewrite IH. f_equal.
    unfold transform. rewrite OF, OS. cbn [negb map all_res].
    destruct (transform_indices _ _ _ _ _); reflexivity. }
  split; apply (f_equal Some); [exact (E true _)|exact (E false _)].
Qed.

(** ** Failed refits *)
Definition same_results (o o' : obj) : Prop :=
  o_status o' = o_status o /\ o_splits o' = o_splits o /\ o_counts o' = o_counts o /\ o_table o' = o_table o /\
  o_fitted o' = o_fitted o.
Lemma same_results_answers e o o' : same_results o o' -> same_answers e o o'.
Proof.
  intros (St & S & C & T & F) fs c Q.
  assert (OT : forall f, snd (on_table (o, fs) f) = snd (on_table (o', fs) f)).
  { intros f. unfold on_table. cbn [fst snd]. rewrite <- F, <- T. destruct (o_fitted o'); cbn [negb snd]; [|reflexivity].
    destruct (o_table o') as [t|]; [|reflexivity]. destruct (f t). reflexivity. }
  destruct c; cbn [query] in Q; try contradiction; try (cbn [step]; apply OT); cbn [step snd].
  - unfold transform. rewrite F, S, C. reflexivity.
  - rewrite F, S. reflexivity.
  - rewrite F, St. reflexivity.
  - rewrite F, T. reflexivity.
Qed.

Lemma merge_loop_some sol : forall n acc, (length sol <= length n)%nat -> merge_loop acc sol n <> None.
Proof.
  induction sol as [|b s IH]; intros n acc L; [discriminate|]. destruct n as [|v r]; [cbn in L; lia|].
  cbn in L. cbn [merge_loop]. destruct b; [|apply IH; lia].
  destruct (merge_loop 0 s r) eqn:E; [discriminate|]. exfalso. exact (IH r 0 ltac:(lia) E).
Qed.
Lemma bin_info_some wu sol n others sp m : (length sol <= length n)%nat -> n <> [] -> bin_info_1 wu sol n others sp m <> None.
Proof.
  intros L N. unfold bin_info_1. destruct sol as [|b s].
  - destruct n; [contradiction N; reflexivity|]. discriminate.
  - destruct (merge_loop 0 (b :: s) n) eqn:E; [discriminate|]. exfalso. exact (merge_loop_some _ _ _ L E).
Qed.

Lemma has_clean_nonempty e d : length (d_x d) = length (d_y d) -> length (d_x d) = length (d_w d) ->
  has_clean e d -> map num (x_clean (split_masks (e_special e) (d_x d) (d_y d) (d_w d))) <> [].
Proof.
  intros L1 L2 (i & x & y & w & Hx & Hy & Hw & [z ->] & NC & NY).
  rewrite (split_masks_filter _ _ _ _ L1 L2). unfold out_of. cbn [x_clean].
  assert (I : In (XNum z, y, w) (rows (d_x d) (d_y d) (d_w d))).
  { apply (nth_error_In _ i). unfold rows.
    assert (C : forall A B (l1 : list A) (l2 : list B) j a b, nth_error l1 j = Some a -> nth_error l2 j = Some b ->
              nth_error (combine l1 l2) j = Some (a, b)).
    { clear. induction l1 as [|p l1 IH]; intros [|q l2] [|j] a b Ha Hb; cbn in *; try discriminate.
      - injection Ha as ->. injection Hb as ->. reflexivity.
      - apply IH; assumption. }
    apply C; [apply C; assumption|exact Hw]. }
  intros E. apply map_eq_nil in E. apply map_eq_nil in E.
  match type of E with filter ?f ?l = [] => assert (K : In (XNum z, y, w) (filter f l)) end.
  { apply filter_In. split; [exact I|]. unfold miss_b. rewrite flat_codes_spec. unfold row_x, row_y. cbn [fst snd].
    destruct y; [contradiction NY; reflexivity| |]; cbn [x_isnull y_isnull orb negb andb];
      apply negb_true_iff; apply not_true_iff_false; intros K; apply NC; apply isin_In in K; exact K. }
  rewrite E in K. exact K.
Qed.

(** the results survive a fit that raises, provided there is a clean record *)
Lemma post_err e x so o sol sp nev ev c s o' k : post e x so o sol sp nev ev c s = (o', Err k) ->
  o_spec o <> None -> o_miss o <> None -> map num (x_clean so) <> [] ->
  (sp = [] /\ sol = [] \/ sp <> [] /\ length sol = length nev /\ length nev = length ev /\ nev <> []) -> False.
Proof.
  intros H S M N Sh. unfold post in H. destruct (o_spec o) as [p|]; [|contradiction S; reflexivity].
  destruct (o_miss o) as [m|]; [|contradiction M; reflexivity].
  destruct (bin_info_1 _ _ _ _ (map fst p) _) as [a|] eqn:B1.
  - destruct (bin_info_1 _ _ _ _ (map snd p) _) as [b|] eqn:B2.
    + destruct (map num (x_clean so)); [contradiction N; reflexivity|]. discriminate.
    + revert B2. apply bin_info_some; destruct Sh as [[-> ->]|(Z & L1 & L2 & NN)]; try (cbn; lia); try discriminate;
        (destruct sp; [contradiction Z; reflexivity|]); [lia|]. intros ->. destruct nev; [contradiction NN; reflexivity|discriminate].
  - revert B1. apply bin_info_some; destruct Sh as [[-> ->]|(Z & L1 & L2 & NN)]; try (cbn; lia); try discriminate;
        (destruct sp; [contradiction Z; reflexivity|]); [lia|]. exact NN.
Qed.
Lemma refine_err e x so o s0 o' k : answers_fit e -> map num (x_clean so) <> [] ->
  refine_and_optimise e x so o s0 = (o', Err k) -> same_results o o'.
Proof.
  intros A N H. unfold refine_and_optimise in H. destruct (prebins_st _ _ _ _ _ _) as [[ps q]|] eqn:E.
  - destruct q as [[[s nev] ev]|k'].
    + apply prebins_core in E. apply compute_prebins_shape in E. cbn [pb_splits pb_nev pb_ev] in E.
      unfold optimise in H. destruct (Nat.leb_spec (length nev) 1) as [L|L].
      * exfalso. revert H. intros H. apply post_err in H; [exact H|discriminate|discriminate|exact N|].
        destruct E as [(-> & -> & ->)|(Z & L1 & L2)]; [left; split; reflexivity|].
        destruct s; [contradiction Z; reflexivity|cbn in L1; lia].
      * destruct (e_solver _ _ _ _ _ _) as [[st sol]|k'] eqn:SV.
        -- exfalso. apply post_err in H; [exact H|discriminate|discriminate|exact N|].
           destruct E as [(-> & -> & ->)|(Z & L1 & L2)]; [cbn in L; lia|]. right. split; [exact Z|].
           split; [exact (proj1 (A _ _ _ _ _ _ _ SV))|]. split; [lia|]. intros ->. cbn in L. lia.
        -- injection H as <- <-. unfold same_results. cbn. tauto.
    + injection H as <- <-. unfold same_results. cbn. tauto.
  - injection H as <- <-. unfold same_results. tauto.
Qed.
Lemma C59_failed e d o o' k : answers_fit e -> length (d_x d) = length (d_y d) -> length (d_x d) = length (d_w d) ->
  has_clean e d -> (forall c, o_user o <> Some (c, [])) -> fit e d o = (o', Err k) -> same_answers e o o'.
Proof.
  intros A L1 L2 HC NU H. apply same_results_answers. apply (has_clean_nonempty e d L1 L2) in HC. unfold fit in H.
  destruct (params_ok o); cbn [negb] in H; [|injection H as <- <-; unfold same_results; tauto].
  destruct (o_user o) as [[c [|u us]]|].
  - destruct (NU c). reflexivity.
  - destruct (negb (distinct (u :: us))); [injection H as <- <-; unfold same_results; tauto|].
    apply refine_err in H; [|exact A|exact HC]. revert H. unfold same_results. cbn. tauto.
  - destruct (e_prebin _ _); [|injection H as <- <-; unfold same_results; tauto].
    apply refine_err in H; [exact H|exact A|exact HC].
Qed.

(** ** json *)
Lemma C50_round_trip o fs p fs1 o2 : to_json o fs p = (fs1, Ok tt) ->
  exists t o3 t', o_table o = Some t /\ read_json o2 fs1 p = (o3, Ok tt) /\ o_table o3 = Some t' /\ same_contents t t'.
Proof.
  unfold to_json. destruct (o_fitted o); cbn [negb]; [|discriminate]. destruct (o_table o) as [t|]; [|discriminate].
  destruct (t_splits_c t); [discriminate|]. destruct (json_ok t); [|discriminate]. intros H. injection H as <-.
  unfold read_json. unfold fwrite at 1. rewrite Z.eqb_refl. eexists t, _, _. split; [reflexivity|]. split; [reflexivity|].
  split; [reflexivity|]. unfold same_contents, of_j, to_j. cbn. repeat split. destruct (t_user t) as [[]|]; reflexivity.
Qed.
Lemma other_files o fs p q : q <> p -> fst (to_json o fs p) q = fs q.
Proof.
  intros N. unfold to_json. destruct (o_fitted o); cbn [negb]; [|reflexivity]. destruct (o_table o) as [t|]; [|reflexivity].
  destruct (t_splits_c t); [reflexivity|]. apply Z.eqb_neq in N. destruct (json_ok t); cbn [fst]; unfold fwrite; rewrite N; reflexivity.
Qed.
Lemma params_kept e d o : o_fixed o = None -> o_fixed (fst (fit e d o)) = None /\ o_user (fst (fit e d o)) = o_user o.
Proof.
  intros FX. unfold fit. destruct (params_ok o); cbn [negb]; [|split; [exact FX|reflexivity]].
  assert (PN : forall fuel wu dv data u n b s ps r, prebins_st fuel wu dv data (mkP u None n b) s = Some (ps, r) ->
            p_user ps = u /\ p_fixed ps = None).
  { clear. induction fuel as [|fuel IH]; intros wu dv data u n b s ps r H; [discriminate|].
    destruct s as [|x s]; [injection H as <- <-; split; reflexivity|]. revert H. cbn [prebins_st]. cbv zeta. cbn [p_fixed p_user p_nref p_flag].
    destruct (any (map2 _ _ _)).
    - destruct (refines dv); [apply IH|]. intros H; injection H as <- <-; split; reflexivity.
    - intros H; injection H as <- <-; split; reflexivity. }
  assert (R : forall so o1 s0, o_fixed o1 = None -> o_fixed (fst (refine_and_optimise e d so o1 s0)) = None /\
            o_user (fst (refine_and_optimise e d so o1 s0)) = o_user o1).
  { intros so o1 s0 F1. unfold refine_and_optimise. rewrite F1.
    destruct (prebins_st _ _ _ _ _ _) as [[ps q]|] eqn:E; [|split; [exact F1|reflexivity]].
    apply PN in E. destruct E as [E1 E2].
    destruct q as [[[s a] b]|k]; [|cbn; split; assumption].
    match goal with |- context [optimise e d so ?o2 s a b NdArray] => destruct (optimise_params e d so o2 s a b NdArray) as [P1 P2] end.
    rewrite P1, P2. cbn. split; assumption. }
  destruct (o_user o) as [[c [|u us]]|] eqn:U.
  - destruct (optimise_params e d (split_masks (e_special e) (d_x d) (d_y d) (d_w d)) o [] [] [] c) as [P1 P2].
    rewrite P1, P2. split; [exact FX|exact U].
  - destruct (negb (distinct (u :: us))); [split; [exact FX|exact U]|]. rewrite FX.
    match goal with |- context [refine_and_optimise e d ?so ?o1 ?s0] => destruct (R so o1 s0 eq_refl) as [R1 R2] end.
    split; [exact R1|]. rewrite R2. reflexivity.
  - destruct (e_prebin _ _); [|split; [exact FX|exact U]].
    match goal with |- context [refine_and_optimise e d ?so ?o1 ?s0] => destruct (R so o1 s0 FX) as [R1 R2] end.
    split; [exact R1|]. rewrite R2. exact U.
Qed.
Lemma C50_writes e d o o1 fs p : fit e d o = (o1, Ok tt) -> o_fixed o = None ->
  (o_user o = None \/ exists s u, o_user o = Some (PyList, s :: u)) -> d_int d = false -> e_special_c e = PyList ->
  snd (to_json o1 fs p) = Ok tt.
Proof.
  intros H FX U DI SC.
  destruct (fit_table e d o o1 H) as (t & a & b & s & c' & T & _ & _ & _ & Tc & _ & Tsc & _ & _ & _ & Ti & To & Tu & OF & _ & NA).
  pose proof (params_kept e d o FX) as [_ UK]. rewrite H in UK. cbn [fst] in UK. rewrite UK in Tu.
  assert (c' = NdArray) as ->. { apply NA. intros c K. destruct U as [U|(x & u & U)]; congruence. }
  unfold to_json. rewrite OF, T, Tc. cbn [negb]. unfold json_ok. rewrite Ti, To, Tu, Tsc, DI, SC. cbn [negb].
  assert (E1 : match t_special t with SpList _ => true | _ => true end = true) by (destruct (t_special t); reflexivity).
  destruct (t_special t); destruct U as [->|(x & u & ->)]; reflexivity.
Qed.
Lemma C50_integers e d o o1 fs p : fit e d o = (o1, Ok tt) -> (forall c, o_user o <> Some (c, [])) -> d_int d = true ->
  to_json o1 fs p = (fwrite fs p Truncated, Err TypeError).
Proof.
  intros H NU DI.
  destruct (fit_table e d o o1 H) as (t & a & b & s & c' & T & _ & _ & _ & Tc & _ & _ & _ & _ & _ & Ti & _ & _ & OF & _ & NA).
  rewrite (NA NU) in Tc. unfold to_json. rewrite OF, T, Tc. cbn [negb]. unfold json_ok. rewrite Ti, DI. cbn [negb].
  rewrite andb_false_r. reflexivity.
Qed.
Lemma C50_resave o fs p o1 q : read_json o fs p = (o1, Ok tt) -> to_json o1 fs q = (fwrite fs q Truncated, Err TypeError).
Proof.
  unfold read_json. destruct (fs p) as [[j|]|]; try discriminate. intros H. injection H as <-.
  unfold to_json. cbn [set_fitted o_fitted o_table negb of_j t_splits_c]. unfold json_ok. cbn [of_j t_others_c t_int].
  rewrite andb_false_r. reflexivity.
Qed.
Lemma C50_transform e o fs p o1 r m xs : read_json o fs p = (o1, r) ->
  transform e o1 m xs = if o_fitted o then transform e o m xs else
                        match o_splits o with None => Err TypeError | Some _ => transform e o1 m xs end.
Proof.
  intros H. assert (E : o_splits o1 = o_splits o /\ o_counts o1 = o_counts o /\ o_fitted o1 = true).
  { unfold read_json in H. destruct (fs p) as [[j|]|]; injection H as <- <-; repeat split. }
  destruct E as (S & C & F). destruct (o_fitted o) eqn:FO.
  - unfold transform. rewrite F, FO, S, C. reflexivity.
  - destruct (o_splits o) eqn:SO; [reflexivity|]. unfold transform. rewrite F, S. reflexivity.
Qed.
(** without a call of fit that reached the optimiser there are no splits *)
Lemma fresh_splits e h : forall w w' outs, exec e w h = (w', outs) -> ~ called is_fit h -> o_splits (fst w') = o_splits (fst w).
Proof.
  induction h as [|c h IH]; intros w w' outs H N; [injection H as <- <-; reflexivity|].
  apply exec_cons in H. destruct H as (w1 & v & l & S & E & _). rewrite called_cons in N.
  rewrite (IH _ _ _ E (fun K => N (or_intror K))). destruct w as [o fs]. cbn [fst].
  assert (OT : forall f w1 v, on_table (o, fs) f = (w1, v) -> o_splits (fst w1) = o_splits o).
  { clear. intros f w1 v. unfold on_table. cbn [fst snd]. destruct (negb (o_fitted o)); [intros H; injection H as <- <-; reflexivity|].
    destruct (o_table o) as [t|]; [|intros H; injection H as <- <-; reflexivity].
    destruct (f t). intros H; injection H as <- <-; reflexivity. }
  destruct c; cbn [step] in S; try (injection S as <- <-; reflexivity); try exact (OT _ _ _ S).
  - contradiction N. left. exists d. reflexivity.
  - destruct (to_json o fs p). injection S as <- <-. reflexivity.
  - destruct (read_json o fs p) eqn:R. injection S as <- <-. cbn [fst]. unfold read_json in R.
    destruct (fs p) as [[j|]|]; injection R as <- <-; reflexivity.
Qed.
(** failed calls other than fit, to_json and read_json change nothing *)
Lemma failed_call e w c w' k : step e w c = (w', Err k) ->
  match c with Fit _ | ToJson _ | ReadJson _ => False | _ => True end -> w' = w.
Proof.
  destruct w as [o fs]. intros H N.
  assert (OT : forall f, on_table (o, fs) f = (w', Err k) -> (forall t t', f t = (t', Err k) -> t' = t) -> w' = (o, fs)).
  { clear. intros f H K. unfold on_table in H. cbn [fst snd] in H. destruct (o_fitted o) eqn:F; cbn [negb] in H; [|injection H as <- _; reflexivity].
    destruct (o_table o) as [t|] eqn:T; [|injection H as <- _; reflexivity].
    destruct (f t) as [t' v] eqn:E. injection H as <- ->. rewrite (K _ _ E). rewrite <- T. destruct o. cbn in *. subst. reflexivity. }
  destruct c; cbn [step] in H; try contradiction; try (injection H as <- _; reflexivity); try discriminate.
  - apply (OT _ H). intros t t' E. destruct valid; [discriminate|congruence].
  - apply (OT _ H). intros t t' E. destruct (negb (t_built t)); congruence.
  - apply (OT _ H). intros t t' E. destruct (negb (t_built t)); [congruence|]. destruct valid; [discriminate|congruence].
  - apply (OT _ H). intros t t' E. congruence.
  - apply (OT _ H). intros t t' E. congruence.
Qed.

(** ** user_splits_fixed in any order *)
Lemma insert_key_fst {A B} (x : Z * A) (y : Z * B) : fst x = fst y -> forall (l : list (Z * A)) (m : list (Z * B)),
  map fst l = map fst m -> map fst (insert_by_key x l) = map fst (insert_by_key y m).
Proof.
  intros E. induction l as [|a l IH]; intros [|b m] H; cbn in H; try discriminate; cbn [insert_by_key map].
  - rewrite E. reflexivity.
  - injection H as H1 H2. rewrite E, H1. destruct (fst y <=? fst b); cbn [map]; [rewrite E, H1, H2; reflexivity|].
    rewrite H1. f_equal. apply IH. exact H2.
Qed.
Lemma sort_key_fst u : forall f : list bool, length u = length f ->
  map fst (sort_by_key (combine u f)) = sorted_splits u.
Proof.
  unfold sorted_splits. induction u as [|x u IH]; intros [|b f] L; try discriminate; [reflexivity|].
  cbn [combine map sort_by_key fold_right]. apply insert_key_fst; [reflexivity|]. apply IH. injection L as L. exact L.
Qed.
Lemma insert_key_In {A} (x : Z * A) l y : In y (insert_by_key x l) <-> y = x \/ In y l.
Proof.
  induction l as [|a l IH]; cbn [insert_by_key]; [cbn; intuition congruence|].
  destruct (fst x <=? fst a); cbn [In]; [intuition congruence|]. rewrite IH. tauto.
Qed.
Lemma sort_key_In {A} (l : list (Z * A)) y : In y (sort_by_key l) <-> In y l.
Proof. induction l as [|x l IH]; [reflexivity|]. cbn [sort_by_key fold_right]. rewrite insert_key_In. cbn [In]. rewrite <- IH. intuition congruence. Qed.
Lemma combine_fst_snd {A B} (l : list (A * B)) : combine (map fst l) (map snd l) = l.
Proof. induction l as [|[a b] l IH]; [reflexivity|]. cbn. rewrite IH. reflexivity. Qed.
Lemma sorted_pairs u f : length u = length f -> combine (sorted_splits u) (permuted u f) = sort_by_key (combine u f).
Proof. intros L. unfold permuted. rewrite <- (sort_key_fst u f L). apply combine_fst_snd. Qed.

Lemma select_fixed {A} (sol f : list bool) : forall (l : list A) s, In (s, true) (combine l f) ->
  (forall i, nth_error f i = Some true -> nth_error sol i = Some true) -> length sol = S (length l) ->
  In s (select (init sol) l).
Proof.
  revert f. induction sol as [|b sol IH]; intros f l s H K L; [destruct l; discriminate|].
  destruct l as [|a l]; [destruct H|]. destruct f as [|x f]; [destruct H|].
  destruct sol as [|b' sol]; [discriminate|].
  change (init (b :: b' :: sol)) with (b :: init (b' :: sol)). cbn [select].
  cbn [combine In] in H. destruct H as [H|H].
  - injection H as -> ->. pose proof (K 0%nat eq_refl) as E. cbn in E. injection E as ->. left. reflexivity.
  - assert (I : In s (select (init (b' :: sol)) l)).
    { apply (IH f l s H); [|cbn in L; cbn; lia]. intros i Hi. exact (K (S i) Hi). }
    destruct b; [right; exact I|exact I].
Qed.

Lemma post_status e x so o sol sp nev ev c s : o_status (fst (post e x so o sol sp nev ev c s)) = o_status o /\
  o_splits (fst (post e x so o sol sp nev ev c s)) = o_splits o.
Proof.
  unfold post. destruct (o_spec o), (o_miss o); try (split; reflexivity).
  destruct (bin_info_1 _ _ _ _ _ _); [|split; reflexivity]. destruct (bin_info_1 _ _ _ _ _ _); [|split; reflexivity].
  destruct (map num (x_clean so)); split; reflexivity.
Qed.
Lemma C06_any e d o o1 np f c u : answers_fit e -> keeps_fixed e -> o_fixed o = Some (np, f) -> o_user o = Some (c, u) ->
  fit e d o = (o1, Ok tt) -> o_status o1 = Some 0 ->
  exists c' sp, o_splits o1 = Some (c', sp) /\
    forall i s, nth_error u i = Some s -> nth_error f i = Some true -> In s sp.
Proof.
  intros A KF FX U H ST. unfold fit, params_ok in H. rewrite FX, U in H.
  destruct ((negb np || (length f =? 0)%nat) && (length u =? length f)%nat) eqn:OK; cbn [negb] in H; [|discriminate].
  apply andb_true_iff in OK. destruct OK as [_ L]. apply Nat.eqb_eq in L.
  destruct u as [|x u].
  - pose proof (optimise_table _ _ _ _ _ _ _ _ _ H) as P. destruct P as (t & a & b & s & c' & P).
    exists c', s. split; [decompose [and] P; assumption|]. intros i z Hi. destruct i; discriminate.
  - destruct (negb (distinct (x :: u))); [discriminate|]. remember (x :: u) as us eqn:EU. clear EU.
    cbn [option_map snd] in H. unfold refine_and_optimise in H. cbn [o_user o_fixed o_nref o_flag] in H.
    destruct (prebins_st _ _ _ _ _ _) as [[ps q]|] eqn:E; [|discriminate].
    destruct q as [[[s nev] ev]|k]; [|discriminate].
    pose proof (prebins_core _ _ _ _ _ _ _ _ _ _ _ _ _ E) as C. cbn [option_map snd] in C.
    pose proof (compute_prebins_shape _ _ _ _ _ _ _ _ _ _ C) as Sh. cbn [pb_splits pb_nev pb_ev] in Sh.
    destruct (compute_prebins_fixed _ _ _ _ _ _ _ _ _ _ C) as (f' & Ff & Kp). cbn [pb_fixed pb_splits] in Ff, Kp.
    rewrite sorted_pairs in Kp by exact L.
    set (o2 := mkO _ _ _ _ (Some _) (Some _) _ _ _ _ _) in H.
    assert (FX2 : option_map snd (o_fixed o2) = Some f') by exact Ff.
    assert (Kp' : forall i z, nth_error us i = Some z -> nth_error f i = Some true -> In (z, true) (combine s f')).
    { intros i z Hi Hf. apply Kp. apply sort_key_In. apply (nth_error_In _ i).
      clear -Hi Hf. revert us f Hi Hf. induction i as [|i IH]; intros [|a us] [|b f] Hi Hf; try discriminate; cbn in *.
      - injection Hi as ->. injection Hf as ->. reflexivity.
      - apply IH; assumption. }
    unfold optimise in H. destruct (Nat.leb_spec (length nev) 1) as [LE|LE].
    + destruct Sh as [(-> & _ & _)|(NZ & L1 & _)].
      * match type of H with post ?e ?x ?so ?o ?sol ?sp ?nev ?ev ?c ?s = _ =>
          destruct (post_status e x so o sol sp nev ev c s) as [_ P2] end. rewrite H in P2. cbn [fst] in P2.
        exists NdArray, []. split; [rewrite P2; reflexivity|].
        intros i z Hi Hf. destruct (Kp' i z Hi Hf).
      * destruct s; [contradiction NZ; reflexivity|cbn in L1; lia].
    + destruct Sh as [(-> & -> & _)|(NZ & L1 & _)]; [cbn in LE; lia|].
      rewrite FX2 in H. destruct (e_solver _ _ _ _ _ _) as [[st sol]|k] eqn:SV; [|discriminate].
      match type of H with post ?e ?x ?so ?o ?sol ?sp ?nev ?ev ?c ?s = _ =>
        destruct (post_status e x so o sol sp nev ev c s) as [P1 P2] end. rewrite H in P1, P2. cbn [fst] in P1, P2.
      rewrite P1 in ST. cbn in ST. injection ST as ->.
      exists NdArray, (select (init sol) s). split; [rewrite P2; reflexivity|].
      intros i z Hi Hf. apply (select_fixed sol f').
      * exact (Kp' i z Hi Hf).
      * refine (KF _ _ _ _ _ _ _ _ SV eq_refl). rewrite L1.
        edestruct compute_prebins_fixed_len as (f2 & F2 & L2); [|exact C|]; cycle 1.
        { cbn [pb_fixed pb_splits] in F2, L2. rewrite Ff in F2. injection F2 as <-. lia. }
        unfold permuted. rewrite <- (sort_key_fst us f L), !map_length. reflexivity.
      * rewrite <- L1. exact (proj1 (A _ _ _ _ _ _ _ SV)).
Qed.
