(** Property theorems for a multiclass target (C29, C52). The CP-SAT solver is trusted to return an
    assignment satisfying the posted constraints ([m_solved]). *)
From Coq Require Import List ZArith Bool Arith Lia Sorting QArith Reals Lra.
From Verif Require Import Model.Arr Model.Core Model.CP Model.Multi Model.Metrics Model.MultiT
  Spec.CoreSpec Spec.CPSpec Spec.CPFitSpec Spec.MultiSpec Spec.MultiWSpec
  Proofs.ArrP Proofs.CoreP Proofs.FitP Proofs.CoreFinal Proofs.CPP Proofs.CPC Proofs.CPTable Proofs.CPFinal
  Proofs.MultiP Proofs.MultiFinal Proofs.MultiW.
Import ListNotations.
Open Scope Z_scope.

(** C52: the classes are the labels seen in the clean data, and every cell of the table counts exactly the
    training records of its class that belong to its row. *)
Theorem C52_table_exact : forall solver sp fixed user splits0 rs f,
  nondecreasing splits0 -> m_solver_ok solver -> ~ In XNaN (flat_codes sp) ->
  fit_multi solver sp fixed user splits0 rs = Some (Ok f) ->
  let n_rows := (S (length (mf_splits f)) + n_special sp + 1)%nat in
  increasing (mf_classes f) /\
  (forall cl, In cl (mf_classes f) <-> exists r, In r rs /\ m_y r = Some cl /\ m_x r <> XNaN /\ ~ In (m_x r) (flat_codes sp)) /\
  length (mf_cols f) = length (mf_classes f) /\
  forall c cl, nth_error (mf_classes f) c = Some cl ->
    nondecreasing (mf_splits f) /\
    exists col, nth_error (mf_cols f) c = Some col /\ length col = n_rows /\
    forall k p, (k < n_rows)%nat -> (forall r, p r = true <-> m_y r = Some cl /\ row_of (mf_splits f) sp (m_x r) k) ->
      nth_error col k = Some (Z.of_nat (length (filter p rs))).
Proof. exact multi_table. Qed.
Print Assumptions C52_table_exact.

(** C29: in the fitted table, every class follows the trend requested for it (up to the resolution 1/M of the
    scaled integers), and the p-value, rate-difference and number-of-bins requests hold. *)
Theorem C29_trend_per_class : forall solver sp fixed user splits0 rs f M g X,
  nondecreasing splits0 -> m_solver_ok solver -> 0 < M ->
  fit_multi solver sp fixed user splits0 rs = Some (Ok f) -> m_solved f solver M g X ->
  within (mg_min_bins g) (mg_max_bins g) (Z.of_nat (S (length (mf_splits f)))) /\
  length (mg_trends g) = length (mf_classes f) /\
  forall c t, nth_error (mg_trends g) c = Some t ->
    m_trend_holds M t (class_rows f c) /\
    pvalue_ok (mg_pol g) (mg_test g) (class_rows f c) /\
    (forall k, mg_md g = Some k -> neighbours (apart_res M k) (class_rows f c)).
Proof. exact multi_trends. Qed.
Print Assumptions C29_trend_per_class.

(** The objective is the sum over the classes of the divergence of their rows. *)
Theorem C29_objective : forall solver sp fixed user splits0 rs f M g X phi,
  nondecreasing splits0 -> m_solver_ok solver ->
  fit_multi solver sp fixed user splits0 rs = Some (Ok f) -> m_solved f solver M g X ->
  m_objective (S (length (mp_splits (mf_prebins f)))) phi (mp_cols (mf_prebins f)) X
  = zsum (map (fun c => zsum (map (phi (zsum (map fst (class_rows f c)), zsum (map snd (class_rows f c)))) (class_rows f c)))
              (seq 0 (length (mf_classes f)))).
Proof.
  intros * Hs Hok Hf HX. destruct (multi_groups _ _ _ _ _ _ _ _ _ _ Hs Hok Hf HX) as (gs & Hp & Hr & Hlg & _ & Hcls). cbv zeta in *.
  set (n := S (length (mp_splits (mf_prebins f)))) in *. assert (Hn : (0 < n)%nat) by (unfold n; lia).
  assert (Lc : length (mp_cols (mf_prebins f)) = length (mf_classes f)).
  { destruct HX as (Hne & _). pose proof (fit_multi_inv _ _ _ _ _ _ _ Hf) as F.
    rewrite (rm_cols _ _ _ _ (mm_refined _ _ _ _ _ F) Hne), (mm_classes _ _ _ _ _ F). unfold class_cols. now rewrite map_length. }
  unfold m_objective. f_equal. apply nth_error_ext. intros c. rewrite !nth_error_map.
  destruct (nth_error (mf_classes f) c) as [cl|] eqn:Ec.
  - destruct (Hcls c cl Ec) as (ne & ev & En & L1 & L2 & P1 & P2 & ER). rewrite En.
    assert (Hc : (c < length (mf_classes f))%nat) by (apply nth_error_Some; congruence).
    rewrite (nth_error_nth' _ 0%nat) by (rewrite seq_length; exact Hc). rewrite seq_nth by exact Hc. cbn [option_map fst snd Nat.add]. f_equal.
    rewrite ER. rewrite (objective_groups n gs X Hn Hp Hr). unfold rows_of. rewrite !map_map. cbn [fst snd].
    assert (T : forall l, length l = n -> zsum (map (fun g0 => gsum l g0) gs) = zsum l).
    { intros l Hl. assert (G : forall gs a m, chain a m gs -> (m <= length l)%nat -> zsum (map (fun g0 => gsum l g0) gs) = zsum (firstn (m - a) (skipn a l))).
      { clear. intros gs a m H. induction H as [m|s e m gs Hse Hch IH]; intros Hm.
        - rewrite Nat.sub_diag. reflexivity.
        - pose proof (chain_le _ _ _ Hch) as Hle. cbn [map zsum]. rewrite IH by exact Hm. unfold gsum, slice. cbn [fst snd].
          replace (m - s)%nat with ((S e - s) + (m - S e))%nat by lia. rewrite <- zsum_app. f_equal.
          assert (E : forall (A : Type) a b (l : list A), firstn (a + b) l = firstn a l ++ firstn b (skipn a l))
            by (clear; intros A a; induction a as [|a IH]; intros b [|x l]; cbn; try reflexivity; [now rewrite firstn_nil|now rewrite IH]).
          rewrite E. f_equal. rewrite skipn_skipn_add. f_equal. f_equal. lia. }
      rewrite (G gs 0%nat n Hp) by lia. rewrite Nat.sub_0_r. cbn [skipn]. rewrite firstn_all2 by lia. reflexivity. }
    rewrite !T by lia. apply zsum_map_ext. intros [s e] Hin. pose proof (chain_in _ _ _ _ _ Hp Hin).
    unfold at_group, div_mat. cbn [fst snd]. rewrite !cum_mat_gsum by lia. reflexivity.
  - apply nth_error_None in Ec. assert (E1 : nth_error (mp_cols (mf_prebins f)) c = None) by (apply nth_error_None; lia).
    assert (E2 : nth_error (seq 0 (length (mf_classes f))) c = None) by (apply nth_error_None; rewrite seq_length; exact Ec).
    now rewrite E1, E2.
Qed.
Print Assumptions C29_objective.

(** Completeness: a partition of the prebins in which every class follows its trend and the other requests hold
    is feasible (ascending / descending with min_event_rate_diff > 0, i.e. without the pre-processing cuts of C15). *)
Theorem C29_valid_binning_feasible : forall n M cols g gs, (0 < n)%nat -> 0 < M ->
  (forall c, In c cols -> length (fst c) = n /\ length (snd c) = n /\
     (forall a, In a (fst c) -> 0 < a) /\ (forall a, In a (snd c) -> 0 < a)) ->
  partition n gs ->
  (mg_md g = None -> Forall (fun t => t <> TAscending /\ t <> TDescending) (mg_trends g)) ->
  within (mg_min_bins g) (mg_max_bins g) (Z.of_nat (length gs)) ->
  (forall f i, mg_fixed g = Some f -> (i < n - 1)%nat -> nth_error f i = Some true -> exists s, In (s, i) gs) ->
  Forall2 (fun t c => trend_met t (rows_of (fst c) (snd c) gs) /\
     pvalue_ok (mg_pol g) (mg_test g) (rows_of (fst c) (snd c) gs) /\
     (forall k, mg_md g = Some k -> neighbours (apart M k) (rows_of (fst c) (snd c) gs))) (mg_trends g) cols ->
  exists X, describes n gs X /\ m_feasible n M cols g X.
Proof.
  intros * Hn HM Hc Hp Hmd Hb Hfx HF. exists (mat_of gs). split; [apply mat_of_represents|].
  apply multi_complete with (gs := gs); auto; [apply mat_of_represents|].
  intros E. apply Hmd. destruct (mg_md g); [discriminate|reflexivity].
Qed.
Print Assumptions C29_valid_binning_feasible.

(** ** A concrete fit: three prebins, classes 0, 1, 2; class 0 is frequent at both ends. *)
Definition mx_row (x : Z) (y : Z) : mrec := {| m_x := XNum x; m_y := Some y |}.
Definition mx_rs : list mrec :=
  [mx_row 1 0; mx_row 1 0; mx_row 1 1; mx_row 1 2;
   mx_row 3 0; mx_row 3 1; mx_row 3 2;
   mx_row 5 0; mx_row 5 0; mx_row 5 1; mx_row 5 2;
   {| m_x := XNum (-9); m_y := Some 1 |}; {| m_x := XNaN; m_y := Some 2 |}; {| m_x := XNum 5; m_y := None |}].
Definition mx_solver (cols : list (list Z * list Z)) : list bool :=
  match cols with [] => [] | c :: _ => repeat true (length (fst c)) end.
Definition mx_gs := [(0, 0); (1, 1); (2, 2)]%nat.
Definition mx_g ts := {| mg_trends := ts; mg_min_bins := Some 2; mg_max_bins := None; mg_fixed := None;
  mg_pol := PVNone; mg_test := fun _ _ => false; mg_md := None |}.
Definition mx_fit := fit_multi mx_solver (SpList [XNum (-9)]) None None [2; 4] mx_rs.
Lemma mx_solver_ok : m_solver_ok mx_solver.
Proof.
  intros cols n Hn Hc H. destruct cols as [|c cols]; [congruence|]. destruct (H c (or_introl eq_refl)) as [E _].
  cbn [mx_solver]. rewrite repeat_length, E. split; [reflexivity|]. destruct n as [|n]; [lia|]. clear. induction n; [reflexivity|exact IHn].
Qed.
Lemma mx_partition : partition 3 mx_gs.
Proof. repeat constructor. Qed.

Definition mx_cols : list (list Z * list Z) := [([2; 2; 2], [2; 1; 2]); ([3; 2; 3], [1; 1; 1]); ([3; 2; 3], [1; 1; 1])].
Lemma mx_feasible_valley : m_feasible 3 1000000 mx_cols (mx_g [TValley; TNone; TPeak]) (mat_of mx_gs).
Proof.
  apply multi_complete with (gs := mx_gs).
  - lia.
  - lia.
  - intros c [<-|[<-|[<-|[]]]]; (split; [reflexivity|]); (split; [reflexivity|]); split; intros a Ha; cbn [fst snd In] in Ha; intuition lia.
  - apply mx_partition.
  - apply mat_of_represents.
  - intros _. repeat constructor; discriminate.
  - split; intros a [=]; subst; cbn; lia.
  - intros f i [=].
  - repeat constructor; cbn [mg_md mx_g]; try discriminate; cbn [trend_met rows_of map mx_gs fst snd mx_cols].
    + exists [(2, 2); (2, 1)], [(2, 2)]. repeat split; repeat constructor; unfold rate_ge, rate; vm_compute; discriminate.
    + exists [(3, 1); (2, 1)], [(3, 1)]. repeat split; repeat constructor; unfold rate_ge, rate; vm_compute; discriminate.
Qed.
Example C29_hyps_met : exists f, mx_fit = Some (Ok f) /\ mf_splits f = [2; 4] /\ mf_classes f = [0; 1; 2] /\
  mf_cols f = [[2; 1; 2; 0; 0]; [1; 1; 1; 1; 0]; [1; 1; 1; 0; 1]] /\
  m_solved f mx_solver 1000000 (mx_g [TValley; TNone; TPeak]) (mat_of mx_gs).
Proof.
  eexists. split; [vm_compute; reflexivity|]. cbn [mf_splits mf_classes mf_cols]. do 3 (split; [reflexivity|]).
  split; [discriminate|]. split; [reflexivity|]. apply mx_feasible_valley.
Qed.

(** A heuristic trend requested for a class (also what "auto_heuristic" resolves to), or a concave / convex one,
    is accepted and ignored: the solver may return a binning that violates it. *)
Theorem C29_heuristic_ignored_refuted : exists solver rs f M g X tc,
  m_solver_ok solver /\ 0 < M /\
  fit_multi solver SpNone None None [2; 4] rs = Some (Ok f) /\ m_solved f solver M g X /\
  nth_error (mg_trends g) 0 = Some (TPeakHeuristic tc) /\ ~ up_down (rate_le_res M) (class_rows f 0).
Proof.
  exists mx_solver, (firstn 11 mx_rs). eexists. exists 1000000, (mx_g [TPeakHeuristic 1; TNone; TNone]), (mat_of mx_gs), 1%nat.
  split; [apply mx_solver_ok|]. split; [lia|]. split; [vm_compute; reflexivity|]. split; [|split; [reflexivity|]].
  - split; [discriminate|]. split; [reflexivity|].
    pose proof (represents_structural 3 mx_gs _ mx_partition (mat_of_represents 3 mx_gs)) as (A & B & C).
    pose proof mx_feasible_valley as (_ & _ & _ & D & _).
    split; [exact A|]. split; [exact B|]. split; [exact C|]. split; [exact D|]. split; [|exact I].
    repeat constructor; intros v [].
  - intros (l1 & l2 & E & H1 & H2). cbn in E. unfold class_rows, row_total, cell in E. cbn in E.
    assert (N1 : forall r, ~ all_pairs (rate_le_res 1000000) ((2, 2) :: (2, 1) :: r)).
    { intros r H. inversion H as [|? ? Ha _]; subst. inversion Ha as [|? ? Hb _]; subst. vm_compute in Hb. discriminate. }
    assert (N2 : ~ all_pairs (fun a b => rate_le_res 1000000 b a) [(2, 1); (2, 2)]).
    { intros H. inversion H as [|? ? Ha _]; subst. inversion Ha as [|? ? Hb _]; subst. vm_compute in Hb. discriminate. }
    destruct l1 as [|a [|b l1]]; cbn [app] in E; [subst l2|injection E as <- <-|injection E as <- <- E].
    + apply N2. inversion H2; assumption.
    + exact (N2 H2).
    + exact (N1 _ H1).
Qed.
Print Assumptions C29_heuristic_ignored_refuted.
Theorem C29_concave_ignored_refuted : exists solver rs f M g X,
  m_solver_ok solver /\ 0 < M /\
  fit_multi solver SpNone None None [2; 4] rs = Some (Ok f) /\ m_solved f solver M g X /\
  nth_error (mg_trends g) 0 = Some TConcave /\
  ~ all_triples (fun a b c => rate a + rate c < 2 * rate b + 2 / inject_Z M)%Q (class_rows f 0).
Proof.
  exists mx_solver, (firstn 11 mx_rs). eexists. exists 1000000, (mx_g [TConcave; TNone; TNone]), (mat_of mx_gs).
  split; [apply mx_solver_ok|]. split; [lia|]. split; [vm_compute; reflexivity|]. split; [|split; [reflexivity|]].
  - split; [discriminate|]. split; [reflexivity|].
    pose proof (represents_structural 3 mx_gs _ mx_partition (mat_of_represents 3 mx_gs)) as (A & B & C).
    pose proof mx_feasible_valley as (_ & _ & _ & D & _).
    split; [exact A|]. split; [exact B|]. split; [exact C|]. split; [exact D|]. split; [|exact I].
    repeat constructor; intros v [].
  - unfold class_rows, row_total, cell. cbn. intros H. inversion H as [|? ? Ha _]; subst. inversion Ha as [|? ? Hb _]; subst.
    inversion Hb as [|? ? Hc _]; subst. vm_compute in Hc. discriminate.
Qed.
Print Assumptions C29_concave_ignored_refuted.

(** Records whose class never occurs among the clean records are counted in no row of the table. *)
Theorem C52_rare_class_lost_refuted : exists solver rs f r,
  m_solver_ok solver /\ fit_multi solver SpNone None None [2; 4] rs = Some (Ok f) /\
  In r rs /\ m_y r = Some 7 /\
  zsum (map (fun k => row_total f k) (seq 0 (S (length (mf_splits f)) + n_special SpNone + 1))) < Z.of_nat (length rs).
Proof.
  exists mx_solver, (firstn 11 mx_rs ++ [{| m_x := XNaN; m_y := Some 7 |}]). eexists. exists {| m_x := XNaN; m_y := Some 7 |}.
  split; [apply mx_solver_ok|]. split; [vm_compute; reflexivity|]. split; [cbn; tauto|]. split; [reflexivity|]. vm_compute. reflexivity.
Qed.
Print Assumptions C52_rare_class_lost_refuted.

(** C53: transform maps a value to the (weighted) mean over the classes of the one-vs-rest WoE of its row. *)
Open Scope R_scope.
Theorem C53_mean_woe : forall solver sp fixed user splits0 rs f m ms mm x k,
  nondecreasing splits0 -> m_solver_ok solver -> ~ In XNaN (flat_codes sp) -> sp_disjoint sp ->
  fit_multi solver sp fixed user splits0 rs = Some (Ok f) -> mf_classes f <> [] ->
  row_of (mf_splits f) sp x k ->
  ((k <= length (mf_splits f))%nat \/ (ms = Empirical /\ mm = Empirical)) ->
  let cols := mf_cols f in
  let cs := seq 0 (length (mf_classes f)) in
  transform_multi f sp m ms mm x =
  Ok match m with
     | MeanWoe => rsum (map (ovr_woe cols k) cs) / INR (length (mf_classes f))
     | WeightedMeanWoe => rsum (map (fun c => IZR (zsum (nth c cols [])) * ovr_woe cols k c) cs)
                          / rsum (map (fun c => IZR (zsum (nth c cols []))) cs)
     end.
Proof. exact multi_woe. Qed.
Print Assumptions C53_mean_woe.
Example C53_hyps_met : exists f, mx_fit = Some (Ok f) /\ mf_classes f <> [] /\
  row_of (mf_splits f) (SpList [XNum (-9)]) (XNum 3) 1 /\ sp_disjoint (SpList [XNum (-9)]).
Proof.
  eexists. split; [vm_compute; reflexivity|]. cbn [mf_classes mf_splits]. split; [discriminate|]. split; [|exact I].
  right. split; [intros [E|[]]; discriminate|]. split; cbn; lia.
Qed.
