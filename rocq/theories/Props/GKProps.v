(** C32, C33: the quantile sketch. *)
From Coq Require Import List ZArith Bool QArith Qround Lia.
From Verif Require Import Model.Arr Model.GK Spec.GKSpec Proofs.GKFinal Proofs.GKI.
Import ListNotations.
Open Scope Z_scope.

(** C32. After any sequence of add / quantile / len calls (and merges of sketches small enough to be exact),
    quantile(q) returns one of the added values, one of whose ranks is within floor(eps (n - 1)) of the
    requested rank floor(q (n - 1) + 1). *)
Theorem C32_quantile_rank_error : forall eps h q,
  (0 < eps)%Q -> (0 <= q)%Q -> (q <= 1)%Q -> lossless eps h -> values h <> [] ->
  exists v s r, quantile (build eps h) q = Ok (v, s) /\ has_rank v (values h) r /\
    Z.abs (r - Qfloor (q * inject_Z (nvals h - 1) + 1)) <= Qfloor (eps * inject_Z (nvals h - 1)).
Proof. exact quantile_rank. Qed.
Print Assumptions C32_quantile_rank_error.

(** quantile(1) is the maximum. *)
Theorem C32_quantile_one_is_max : forall eps h, (0 < eps)%Q -> lossless eps h -> values h <> [] ->
  exists v s, quantile (build eps h) 1 = Ok (v, s) /\ is_maximum v (values h).
Proof. exact quantile_top. Qed.
Print Assumptions C32_quantile_one_is_max.

(** Whatever the merges, quantile never fails on a non-empty sketch and returns an added value. *)
Theorem C32_quantile_is_added_value : forall eps h q, (0 <= q)%Q -> (q <= 1)%Q -> values h <> [] ->
  exists v s, quantile (build eps h) q = Ok (v, s) /\ In v (values h).
Proof. exact quantile_added. Qed.
Print Assumptions C32_quantile_is_added_value.

(** The recorded minimum and maximum are exact, whatever the merges. *)
Theorem C32_min_max_exact : forall eps h, values h <> [] ->
  exists m M, gmin (build eps h) = Some m /\ is_minimum m (values h) /\
              gmax (build eps h) = Some M /\ is_maximum M (values h).
Proof.
  intros e h N. pose proof (wi_base _ _ _ (build_winv e h)) as B.
  pose proof (ba_min _ _ _ B) as M. pose proof (ba_max _ _ _ B) as X.
  destruct (gmin _) as [m|]; [|contradiction]. destruct (gmax _) as [M'|]; [|contradiction].
  exists m, M'. auto.
Qed.
Print Assumptions C32_min_max_exact.

Definition adds (l : list Z) : hist := fold_left HAdd l HNew.
Example C32_hyps_met :
  let h := HQuery (adds [5; 3; 8; 8; 1; 9; 2; 7; 7; 4; 6; 0]) (1#2) in
  (0 < (1#5))%Q /\ lossless (1#5) h /\ values h <> [] /\
  match quantile (build (1#5) h) (1#4) with Ok (v, _) => v = 3 | Err _ => False end.
Proof.
  cbv zeta. split; [reflexivity|]. split; [cbn; tauto|]. split; [cbn; discriminate|]. vm_compute. reflexivity.
Qed.
Example C32_hyps_met_merge :
  let h := HMerge (adds [5; 3; 8; 8; 1; 9; 2; 7; 7; 4; 6; 0]) (adds [10; 11; 3]) in
  lossless (1#5) h /\ values h <> [].
Proof. cbv zeta. split; [|cbn; discriminate]. repeat split; auto; cbn; try tauto. right. reflexivity. Qed.

(** quantile(0) need not be the minimum (it is within the error, not exact). *)
Theorem C32_quantile_zero_is_min_refuted : exists eps h, (0 < eps)%Q /\ lossless eps h /\ values h <> [] /\
  exists v s, quantile (build eps h) 0 = Ok (v, s) /\ ~ is_minimum v (values h).
Proof.
  exists (1#2), (adds [1; 2; 3]). split; [reflexivity|]. split; [cbn; tauto|]. split; [cbn; discriminate|].
  exists 2. eexists. split; [vm_compute; reflexivity|]. intros [_ F]. cbn in F.
  inversion F; subst. inversion H2; subst. inversion H4; subst. lia.
Qed.
Print Assumptions C32_quantile_zero_is_min_refuted.

(** The rank guarantee is lost by merge: merging the sketch of 1, 16, 29 into the sketch of 6 with eps = 1/2,
    quantile(0) returns 16, whose only rank is 3: an error of 2 where floor(eps (n-1)) = 1. *)
Theorem C32_rank_error_after_merge_refuted : exists eps h q, (0 < eps)%Q /\ (0 <= q)%Q /\ (q <= 1)%Q /\
  values h <> [] /\ exists v s, quantile (build eps h) q = Ok (v, s) /\
  forall r, has_rank v (values h) r ->
    Qfloor (eps * inject_Z (nvals h - 1)) < Z.abs (r - Qfloor (q * inject_Z (nvals h - 1) + 1)).
Proof.
  exists (1#2), (HMerge (adds [6]) (adds [1; 16; 29])), 0%Q.
  split; [reflexivity|]. split; [apply Qle_refl|]. split; [unfold Qle; cbn; lia|]. split; [cbn; discriminate|].
  exists 16. eexists. split; [vm_compute; reflexivity|].
  intros r. unfold has_rank. vm_compute (below 16 _). vm_compute (upto 16 _).
  vm_compute (Qfloor ((1 # 2) * _)). vm_compute (Qfloor (0 * _ + 1)). intros. lia.
Qed.
Print Assumptions C32_rank_error_after_merge_refuted.

(** C33. The recorded number of values is the number of values added, whatever the merges. *)
Theorem C33_count_exact : forall eps h, gcount (build eps h) = nvals h.
Proof. intros. apply (ba_count _ _ _ (wi_base _ _ _ (build_winv eps h))). Qed.
Print Assumptions C33_count_exact.

(** Merging two sketches with the same eps never raises. *)
Theorem C33_merge_total : forall eps h o, exists s' o', gk_merge (build eps h) (build eps o) = Ok (s', o').
Proof.
  intros. destruct (gk_merge_winv _ _ _ _ _ (build_winv eps h) (build_winv eps o)) as (s' & o' & E & _). eauto.
Qed.
Print Assumptions C33_merge_total.

(** Missing for the full claim: equality after merging a sketch for which eps (n - 1) >= 1. *)
Theorem C33_weights_sum_to_count_partial : forall eps h, (0 < eps)%Q -> lossless eps h ->
  weight (build eps h) = nvals h.
Proof. exact weight_exact. Qed.
Print Assumptions C33_weights_sum_to_count_partial.

(** In general the weights cover the values at least once... *)
Theorem C33_weights_at_least_count : forall eps h, nvals h <= weight (build eps h).
Proof. exact weight_ge. Qed.
Print Assumptions C33_weights_at_least_count.

(** ... but may count some values twice after a merge. *)
Theorem C33_weights_sum_after_merge_refuted : exists eps h, (0 < eps)%Q /\ nvals h < weight (build eps h).
Proof.
  exists (1#3), (HMerge (adds [26]) (adds [9; 5; 28; 14; 17; 5; 9; 28; 12; 29])).
  split; [reflexivity|]. vm_compute. reflexivity.
Qed.
Print Assumptions C33_weights_sum_after_merge_refuted.
