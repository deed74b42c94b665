From Coq Require Import List ZArith Bool Arith Lia ZifyBool ZifyNat Permutation Sorting.
From Verif Require Import Model.Arr Model.Core Spec.CoreSpec Proofs.ArrP Proofs.CoreP.
Import ListNotations.
Open Scope Z_scope.

Arguments isin : simpl never.
Arguments counts : simpl never.
Arguments bin_count : simpl never.
Arguments rows : simpl never.

(** * Merging prebins *)
Definition rank (sol : list bool) (j : nat) : nat := count_true (firstn j sol).
Definition psum (sol : list bool) (n : list Z) (k : nat) : Z :=
  zsum (map2 (fun j v => if Nat.eqb (rank sol j) k then v else 0) (seq 0 (length n)) n).

Lemma map2_seq_S {C} (f : nat -> Z -> C) (n : list Z) s :
  map2 f (seq (S s) (length n)) n = map2 (fun j => f (S j)) (seq s (length n)) n.
Proof. revert s; induction n as [|v n IH]; intros s; cbn; [reflexivity|]. now rewrite IH. Qed.

Lemma map2_ext {A B C} (f g : A -> B -> C) a b : (forall x y, f x y = g x y) -> map2 f a b = map2 g a b.
Proof. intros H; revert b; induction a as [|x a IH]; intros [|y b]; cbn; try reflexivity. now rewrite H, IH. Qed.

Lemma psum_cons b sol v n k :
  psum (b :: sol) (v :: n) k =
  (if Nat.eqb k 0 then v else 0) +
  (if b then match k with O => 0 | S k' => psum sol n k' end else psum sol n k).
Proof.
  unfold psum. cbn [length seq map2 zsum]. rewrite map2_seq_S.
  assert (E0 : rank (b :: sol) 0 = 0%nat) by reflexivity. rewrite E0.
  assert (ES : forall j, rank (b :: sol) (S j) = ((if b then 1 else 0) + rank sol j)%nat)
    by (intros j; unfold rank; cbn; destruct b; reflexivity).
  f_equal.
  - rewrite Nat.eqb_sym. reflexivity.
  - destruct b.
    + destruct k as [|k].
      * rewrite (map2_ext _ (fun _ _ => 0)) by (intros j w; rewrite ES; reflexivity).
        generalize (seq 0 (length n)); clear. induction n as [|v n IH]; intros [|s l]; cbn; auto.
      * reflexivity.
    + reflexivity.
Qed.

Lemma merge_loop_spec acc sol n : length sol = length n ->
  exists rows, merge_loop acc sol n = Some rows /\ length rows = count_true sol /\
    forall k, (k < count_true sol)%nat ->
      nth_error rows k = Some ((if Nat.eqb k 0 then acc else 0) + psum sol n k).
Proof.
  revert acc n; induction sol as [|b sol IH]; intros acc [|v n] H; cbn in H; try lia.
  - exists []. cbn. repeat split; lia.
  - destruct b.
    + destruct (IH 0 n ltac:(lia)) as (rows & E & L & N). cbn [merge_loop count_true]. rewrite E. cbn [option_map].
      exists ((v + acc) :: rows). split; [reflexivity|]. split; [cbn; lia|].
      intros k Hk. rewrite psum_cons. destruct k as [|k]; cbn [nth_error Nat.eqb].
      * f_equal. lia.
      * rewrite N by lia. f_equal. destruct (Nat.eqb k 0); lia.
    + destruct (IH (acc + v) n ltac:(lia)) as (rows & E & L & N). cbn [merge_loop count_true].
      exists rows. split; [exact E|]. split; [exact L|]. intros k Hk. rewrite N by exact Hk.
      rewrite psum_cons. f_equal. destruct (Nat.eqb k 0); lia.
Qed.

Lemma merge_loop_total acc sol n rows : length sol = length n -> last sol true = true ->
  merge_loop acc sol n = Some rows -> sol <> [] -> zsum rows = acc + zsum n.
Proof.
  revert acc n rows; induction sol as [|b sol IH]; intros acc [|v n] rows H Hl E Hne; cbn in H; try lia;
    [congruence|].
  cbn [merge_loop] in E. destruct sol as [|b' sol].
  - cbn in Hl. subst b. destruct n; [|cbn in H; lia]. cbn in E. injection E as <-. cbn. lia.
  - assert (Hl' : last (b' :: sol) true = true) by exact Hl.
    destruct b.
    + destruct (merge_loop 0 (b' :: sol) n) as [rs|] eqn:Er; [|discriminate].
      cbn in E. injection E as <-. cbn [zsum]. rewrite (IH 0 n rs) by (auto; try lia; discriminate).
      lia.
    + rewrite (IH (acc + v) n rows) by (auto; try lia; discriminate). cbn [zsum]. lia.
Qed.

Lemma psum_map sol g N k :
  psum sol (map g (seq 0 N)) k = zsum (map (fun j => if Nat.eqb (rank sol j) k then g j else 0) (seq 0 N)).
Proof.
  unfold psum. rewrite map_length, seq_length.
  rewrite <- (map_id (seq 0 N)) at 1. rewrite map2_map. reflexivity.
Qed.

Lemma zsum_zero {A} (l : list A) : zsum (map (fun _ => 0) l) = 0.
Proof. induction l; cbn; lia. Qed.

(** Weighted group sums through a second-level key. *)
Lemma zsum_by_rank {A} (key : A -> nat) (w : A -> Z) (rk : nat -> nat) N k l :
  (forall x, In x l -> (key x < N)%nat) ->
  zsum (map (fun j => if Nat.eqb (rk j) k then zsum (map w (filter (fun x => Nat.eqb (key x) j) l)) else 0)
         (seq 0 N))
  = zsum (map w (filter (fun x => Nat.eqb (rk (key x)) k) l)).
Proof.
  intros H. rewrite <- (zsum_by_key key w N (filter (fun x => Nat.eqb (rk (key x)) k) l)).
  - apply zsum_map_ext. intros j _. rewrite filter_filter.
    destruct (Nat.eqb (rk j) k) eqn:E.
    + f_equal. f_equal. apply filter_ext. intros x.
      destruct (Nat.eqb_spec (key x) j) as [->|]; [rewrite E; reflexivity|]. now rewrite andb_false_r.
    + rewrite (filter_ext _ (fun _ => false)).
      * clear. induction l; cbn; auto.
      * intros x. destruct (Nat.eqb_spec (key x) j) as [->|]; [rewrite E; reflexivity|].
        now rewrite andb_false_r.
  - intros x Hx. apply filter_In in Hx as [Hx _]. auto.
Qed.

Lemma last_init_firstn (sol : list bool) j : (j < length sol)%nat -> firstn j (init sol) = firstn j sol.
Proof.
  unfold init. revert j; induction sol as [|b sol IH]; intros [|j] H; cbn in H; try lia; try reflexivity.
  destruct sol as [|c sol]; [cbn in H; lia|].
  change (removelast (b :: c :: sol)) with (b :: removelast (c :: sol)).
  cbn [firstn]. f_equal. apply IH. cbn in *. lia.
Qed.

Lemma length_init {A} (l : list A) : length (init l) = (length l - 1)%nat.
Proof.
  unfold init. induction l as [|a [|b l] IH]; [reflexivity|reflexivity|].
  change (removelast (a :: b :: l)) with (a :: removelast (b :: l)). cbn [length] in *. rewrite IH. lia.
Qed.

Lemma count_true_init sol : sol <> [] -> last sol false = true ->
  count_true sol = S (count_true (init sol)).
Proof.
  intros Hne Hl. unfold init. rewrite (app_removelast_last false Hne) at 1. rewrite Hl.
  rewrite count_true_app. cbn. lia.
Qed.

(** Rows of the merged counts are the counts obtained by digitizing with the selected splits. *)
Lemma merge_counts_digitize c data splits sol :
  nondecreasing splits -> length sol = S (length splits) -> last sol false = true ->
  let so := select (init sol) splits in
  merge_loop 0 sol (counts 1 (digitize splits) c data (S (length splits)))
  = Some (counts 1 (digitize so) c data (S (length so))).
Proof.
  intros Hs Hl Hlast so.
  destruct (merge_loop_spec 0 sol (counts 1 (digitize splits) c data (S (length splits))))
    as (rs & E & L & N); [rewrite length_counts; lia|].
  rewrite E. f_equal.
  assert (Hlen : count_true sol = S (length so)).
  { subst so. rewrite count_true_init by (destruct sol; [cbn in Hl; lia|discriminate] || assumption).
    rewrite length_select; [reflexivity|]. rewrite length_init. lia. }
  apply nth_error_ext. intros k.
  destruct (Nat.lt_ge_cases k (count_true sol)) as [Hk|Hk].
  - rewrite N by exact Hk.
    replace (if Nat.eqb k 0 then 0 else 0) with 0 by (destruct (Nat.eqb k 0); reflexivity).
    unfold counts. rewrite psum_map, nth_error_map, (nth_error_nth' _ 0%nat) by (rewrite seq_length; lia).
    rewrite seq_nth by lia. cbn [option_map Nat.add]. f_equal.
    unfold bin_count, trunc. rewrite Z.quot_1_r, Z.add_0_l.
    rewrite (zsum_map_ext _ (fun j => if Nat.eqb (rank sol j) k then
       zsum (map cw (filter (fun s => Nat.eqb (digitize splits (cx s)) j)
                      (filter (fun s => Bool.eqb (c0 s) c) data))) else 0)).
    + rewrite (zsum_by_rank (fun s => digitize splits (cx s)) cw (rank sol)).
      * rewrite filter_filter. f_equal. f_equal. apply filter_ext. intros s. f_equal. f_equal.
        subst so. rewrite digitize_select; [|exact Hs|rewrite length_init; lia].
        unfold rank. rewrite last_init_firstn; [reflexivity|].
        pose proof (digitize_le splits (cx s)). lia.
      * intros s _. pose proof (digitize_le splits (cx s)). lia.
    + intros j _. rewrite Z.quot_1_r. destruct (Nat.eqb (rank sol j) k); [|reflexivity].
      now rewrite filter_filter.
  - transitivity (@None Z); [|symmetry]; apply nth_error_None; rewrite ?length_counts; lia.
Qed.

(** * Transform, pointwise *)
Lemma flat_dict_not (d : list (Z * list xval)) x : isin (concat (map snd d)) x = false ->
  forall kv, In kv d -> isin (snd kv) x = false.
Proof.
  intros H kv Hkv. apply not_true_is_false. intros Hi. apply isin_In in Hi.
  assert (isin (concat (map (@snd Z (list xval)) d)) x = true); [|congruence].
  apply isin_In. apply in_concat. exists (snd kv). split; [now apply in_map|exact Hi].
Qed.

Lemma special_dict_none {V} k a (mv : list V) base d x cur :
  (forall kv, In kv d -> isin (snd kv) x = false) -> special_dict k a mv base d x cur = cur.
Proof.
  revert base; induction d as [|[ky cs] d IH]; intros base H; cbn; [reflexivity|].
  pose proof (H (ky, cs) (or_introl eq_refl)) as H0. cbn in H0. rewrite H0.
  apply IH. intros kv Hkv; apply H; now right.
Qed.

Lemma transform1_clean {V} splits sp k ms mm (mv : list V) u z :
  is_clean sp (XNum z) = true ->
  transform1_num splits sp k ms mm mv u (XNum z) = idx mv (digitize splits z).
Proof.
  intros Hc. unfold transform1_num. rewrite Hc. cbn [x_isnull num].
  assert (Hi : (digitize splits z <? S (length splits))%nat = true)
    by (pose proof (digitize_le splits z); lia).
  rewrite Hi. unfold apply_special. unfold is_clean in Hc. cbn [x_isnull negb andb] in Hc.
  destruct sp as [|l|d]; [reflexivity| |].
  - cbn [flat_codes] in Hc. apply negb_true_iff in Hc. now rewrite Hc.
  - apply negb_true_iff in Hc. apply special_dict_none. apply flat_dict_not. exact Hc.
Qed.

Lemma transform1_missing {V} splits sp k ms mm (mv : list V) u :
  transform1_num splits sp k ms mm mv u XNaN =
  table_or_const k mm mv (S (length splits) + n_special sp).
Proof. reflexivity. Qed.


Lemma dict_disjoint_tl a d : dict_disjoint (a :: d) -> dict_disjoint d.
Proof.
  intros H i j x y v Hi Hj Hx Hy. assert (S i = S j) by (eapply (H (S i) (S j)); eauto). lia.
Qed.

Lemma special_dict_hit {V} k a (mv : list V) base d x cur i kv :
  dict_disjoint d -> nth_error d i = Some kv -> In x (snd kv) ->
  special_dict k a mv base d x cur = table_or_const k a mv (base + i)%nat.
Proof.
  revert base cur i; induction d as [|[ky cs] d IH]; intros base cur i Hd Hi Hx; [destruct i; discriminate|].
  cbn [special_dict]. destruct i as [|i].
  - injection Hi as <-. cbn [snd] in Hx. assert (Hin := proj2 (isin_In cs x) Hx). rewrite Hin.
    rewrite special_dict_none; [f_equal; lia|].
    intros kv Hkv. apply In_nth_error in Hkv as [j Hj]. apply not_true_is_false. rewrite isin_In. intros Hc.
    assert (0%nat = S j) by (eapply (Hd 0%nat (S j)); cbn; eauto). lia.
  - rewrite (IH (S base) _ i); [f_equal; lia| |exact Hi|exact Hx]. eapply dict_disjoint_tl; eauto.
Qed.

(** index of the special row of a special value *)

Lemma transform1_special {V} splits sp k ms mm (mv : list V) u z i :
  sp_disjoint sp -> special_index sp i (XNum z) ->
  transform1_num splits sp k ms mm mv u (XNum z) = table_or_const k ms mv (S (length splits) + i).
Proof.
  intros Hd Hi. unfold transform1_num. cbn [x_isnull]. unfold apply_special.
  destruct sp as [|l|d]; cbn in Hi; [destruct Hi| |].
  - destruct Hi as [-> Hi]. apply isin_In in Hi. rewrite Hi. f_equal. lia.
  - destruct Hi as (kv & Hkv & Hx). now apply (special_dict_hit k ms mv (S (length splits)) d (XNum z) _ i kv).
Qed.

Lemma idx_seq n i : (i < n)%nat -> idx (map Z.of_nat (seq 0 n)) i = Ok (Z.of_nat i).
Proof.
  intros H. unfold idx. rewrite nth_error_map, (nth_error_nth' _ 0%nat) by (rewrite seq_length; lia).
  rewrite seq_nth by lia. reflexivity.
Qed.

Lemma indices_clean splits sp ms mm z : is_clean sp (XNum z) = true ->
  transform_indices splits sp ms mm (XNum z) = Ok (Z.of_nat (digitize splits z)).
Proof.
  intros H. unfold transform_indices. rewrite transform1_clean by exact H. apply idx_seq.
  pose proof (digitize_le splits z). lia.
Qed.
Lemma indices_missing splits sp ms : transform_indices splits sp ms Empirical XNaN
  = Ok (Z.of_nat (S (length splits) + n_special sp)).
Proof. unfold transform_indices. rewrite transform1_missing. cbn [table_or_const use_table]. apply idx_seq. lia. Qed.
Lemma special_index_lt sp i x : special_index sp i x -> (i < n_special sp)%nat.
Proof.
  destruct sp as [|l|d]; cbn; [tauto|lia|]. intros (kv & H & _). apply nth_error_Some. congruence.
Qed.
Lemma indices_special splits sp mm z i : sp_disjoint sp -> special_index sp i (XNum z) ->
  transform_indices splits sp Empirical mm (XNum z) = Ok (Z.of_nat (S (length splits) + i)).
Proof.
  intros Hd Hi. unfold transform_indices. rewrite (transform1_special splits sp _ _ _ _ _ z i Hd Hi).
  cbn [table_or_const use_table]. apply idx_seq. pose proof (special_index_lt _ _ _ Hi). lia.
Qed.

Lemma special_index_ex sp x : isin (flat_codes sp) x = true -> exists i, special_index sp i x.
Proof.
  rewrite isin_In. destruct sp as [|l|d]; cbn; [tauto|eauto|].
  intros H. apply in_concat in H as (cs & Hcs & Hx). apply in_map_iff in Hcs as (kv & <- & Hkv).
  apply In_nth_error in Hkv as [i Hi]. exists i. eauto.
Qed.
Lemma special_index_in sp i x : special_index sp i x -> isin (flat_codes sp) x = true.
Proof.
  rewrite isin_In. destruct sp as [|l|d]; cbn; [tauto|tauto|].
  intros (kv & H & Hx). apply in_concat. exists (snd kv). split; [|exact Hx]. apply in_map.
  eapply nth_error_In; eauto.
Qed.

(** * Counts of special and missing rows *)
Definition cls_b (c : bool) (r : row) : bool := Bool.eqb (y_is0 (row_y r)) c.

Lemma weight_of_filter p (l : list row) : weight_of p l = zsum (map row_w (filter p l)).
Proof. induction l as [|r l IH]; cbn; [reflexivity|]. destruct (p r); cbn; lia. Qed.

Lemma target_info_rows (l : list row) :
  target_info_samples (map row_y l) (map row_w l)
  = (zsum (map row_w (filter (cls_b true) l)), zsum (map row_w (filter (cls_b false) l))).
Proof.
  destruct l as [|r l]; [reflexivity|].
  unfold target_info_samples. cbn [map].
  change (y_is0 (row_y r) :: map y_is0 (map row_y l)) with (map y_is0 (map row_y (r :: l))).
  change (row_w r :: map row_w l) with (map row_w (r :: l)).
  change (row_y r :: map row_y l) with (map row_y (r :: l)).
  rewrite map_map, mnot_map, !select_map_map. f_equal; f_equal; f_equal; apply filter_ext; intros s;
    unfold cls_b; destruct (y_is0 (row_y s)); reflexivity.
Qed.

Definition sp_rows (sp : special) (c : bool) (l : list row) : list Z :=
  match sp with
  | SpDict d => map (fun kv => zsum (map row_w (filter (cls_b c) (filter (fun r => isin (snd kv) (row_x r)) l)))) d
  | _ => [zsum (map row_w (filter (cls_b c) l))]
  end.

Lemma target_info_special_rows sp (l : list row) :
  map fst (target_info_special sp (map row_x l) (map row_y l) (map row_w l)) = sp_rows sp true l /\
  map snd (target_info_special sp (map row_x l) (map row_y l) (map row_w l)) = sp_rows sp false l.
Proof.
  destruct sp as [|cs|d]; cbn [target_info_special sp_rows].
  - rewrite target_info_rows. split; reflexivity.
  - rewrite target_info_rows. split; reflexivity.
  - rewrite !map_map. split; apply map_ext; intros kv; rewrite map_map, !select_map_map, target_info_rows; reflexivity.
Qed.

(** * The fitted table agrees with transform on the training data *)

(** rows of class [c] sent to index [k] *)
Definition goes_to (splits : list Z) (sp : special) (c : bool) (k : nat) (r : row) : bool :=
  cls_b c r &&
  match transform_indices splits sp Empirical Empirical (row_x r) with
  | Ok z => Z.eqb z (Z.of_nat k) | Err _ => false end.

Lemma nth_error_map_trunc1 l k : nth_error (map (trunc 1) l) k = nth_error l k.
Proof.
  rewrite nth_error_map. unfold trunc. destruct (nth_error l k); cbn; [now rewrite Z.quot_1_r|reflexivity].
Qed.

Section Table.
  Variables (splits : list Z) (sp : special) (R : list row).
  Hypothesis Hnd : nondecreasing splits.
  Hypothesis Hy : forall r, In r R -> row_y r <> YNaN.
  Hypothesis Hc : codes_ok sp.
  Hypothesis Hd : sp_disjoint sp.

  Let clean := filter (fun r => negb (miss_b r) && negb (spec_b sp r)) R.
  Let missing := filter miss_b R.
  Let specl := filter (spec_b sp) R.
  Let cs := map (fun r => {| cx := num (row_x r); c0 := y_is0 (row_y r); cw := row_w r |}) clean.

  Lemma miss_b_x r : In r R -> miss_b r = x_isnull (row_x r).
  Proof.
    intros Hr. specialize (Hy r Hr). unfold miss_b. destruct (row_y r); [congruence| |]; now rewrite orb_false_r.
  Qed.

  (** destination of a row *)
  Lemma dest_clean r : In r clean ->
    exists z, row_x r = XNum z /\
    transform_indices splits sp Empirical Empirical (row_x r) = Ok (Z.of_nat (digitize splits z)).
  Proof.
    intros Hr. apply filter_In in Hr as [Hr Hp]. rewrite miss_b_x in Hp by exact Hr.
    destruct (row_x r) as [|z] eqn:E; [discriminate|]. exists z. split; [reflexivity|].
    apply indices_clean. unfold is_clean. cbn in *. rewrite flat_codes_spec, E in Hp.
    destruct sp; [reflexivity|exact Hp|exact Hp].
  Qed.
  Lemma dest_missing r : In r missing ->
    transform_indices splits sp Empirical Empirical (row_x r) = Ok (Z.of_nat (S (length splits) + n_special sp)).
  Proof.
    intros Hr. apply filter_In in Hr as [Hr Hp]. rewrite miss_b_x in Hp by exact Hr.
    destruct (row_x r) as [|z]; [|discriminate]. apply indices_missing.
  Qed.
  Lemma dest_special r : In r specl ->
    exists i, special_index sp i (row_x r) /\ (i < n_special sp)%nat /\
      transform_indices splits sp Empirical Empirical (row_x r) = Ok (Z.of_nat (S (length splits) + i)).
  Proof.
    intros Hr. apply filter_In in Hr as [Hr Hp]. rewrite flat_codes_spec in Hp.
    destruct (row_x r) as [|z] eqn:E.
    - apply isin_In in Hp. contradiction.
    - destruct (special_index_ex _ _ Hp) as [i Hi]. exists i. split; [exact Hi|].
      split; [eapply special_index_lt; eauto|]. now apply indices_special.
  Qed.

  Lemma weight_split p : weight_of p R
    = zsum (map row_w (filter p clean)) + zsum (map row_w (filter p specl)) + zsum (map row_w (filter p missing)).
  Proof.
    assert (Hp : Permutation (clean ++ specl ++ missing) R).
    { apply (filter_three_perm miss_b (spec_b sp)). intros r Hr. rewrite miss_b_x, flat_codes_spec by exact Hr.
      destruct (row_x r) eqn:E; [|reflexivity]. cbn. apply not_true_is_false. rewrite isin_In. exact Hc. }
    rewrite weight_of_filter.
    assert (Hp2 : Permutation (filter p (clean ++ specl ++ missing)) (filter p R)).
    { clear -Hp. induction Hp as [|x l l' H IH|x y l|l l' l'' H1 IH1 H2 IH2]; cbn; [constructor| | |].
      - destruct (p x); [constructor|]; exact IH.
      - destruct (p x), (p y); try apply perm_swap; apply Permutation_refl.
      - eapply perm_trans; eauto. }
    rewrite <- (zsum_perm _ _ (Permutation_map row_w Hp2)).
    rewrite !filter_app, !map_app, !zsum_app. lia.
  Qed.

  Lemma filter_false_in {A} (p : A -> bool) l : (forall x, In x l -> p x = false) -> filter p l = [].
  Proof.
    induction l as [|x l IH]; cbn; intros H; [reflexivity|].
    rewrite (H x) by (now left). apply IH. intros y Hy'; apply H; now right.
  Qed.

  Lemma bin_count_clean c k : bin_count 1 (digitize splits) c cs k
    = zsum (map row_w (filter (goes_to splits sp c k) clean)).
  Proof.
    unfold bin_count, trunc. rewrite Z.quot_1_r. unfold cs.
    assert (E : forall l, (forall r, In r l -> In r clean) ->
       zsum (map cw (filter (fun s => Bool.eqb (c0 s) c && Nat.eqb (digitize splits (cx s)) k)
          (map (fun r => {| cx := num (row_x r); c0 := y_is0 (row_y r); cw := row_w r |}) l)))
       = zsum (map row_w (filter (goes_to splits sp c k) l))).
    { induction l as [|r l IH]; intros Hin; [reflexivity|]. cbn [map filter].
      assert (IHl := IH (fun x Hx => Hin x (or_intror Hx))).
      destruct (dest_clean r (Hin r (or_introl eq_refl))) as (z & Ez & Et).
      unfold goes_to at 1. rewrite Et. cbn [c0 cx]. rewrite Ez. cbn [num]. unfold cls_b.
      replace (Z.of_nat (digitize splits z) =? Z.of_nat k) with (Nat.eqb (digitize splits z) k) by lia.
      destruct (Bool.eqb (y_is0 (row_y r)) c && Nat.eqb (digitize splits z) k); cbn [map zsum cw];
        rewrite IHl; reflexivity. }
    apply E. auto.
  Qed.

  Definition expected_rows (c : bool) : list Z :=
    counts 1 (digitize splits) c cs (S (length splits)) ++ sp_rows sp c specl
      ++ [zsum (map row_w (filter (cls_b c) missing))].

  Lemma length_sp_rows c l : length (sp_rows sp c l) = n_special sp.
  Proof. destruct sp; cbn; try reflexivity. apply map_length. Qed.

  Lemma expected_rows_spec c : length (expected_rows c) = (S (length splits) + n_special sp + 1)%nat /\
    forall k, (k < S (length splits) + n_special sp + 1)%nat ->
      nth_error (expected_rows c) k = Some (weight_of (goes_to splits sp c k) R).
  Proof.
    split.
    { unfold expected_rows. rewrite !app_length, length_counts, length_sp_rows. cbn. lia. }
    intros k Hk. rewrite weight_split. unfold expected_rows.
    destruct (Nat.lt_ge_cases k (S (length splits))) as [H1|H1].
    - rewrite nth_error_app1 by (rewrite length_counts; exact H1).
      unfold counts. rewrite nth_error_map, (nth_error_nth' _ 0%nat) by (rewrite seq_length; lia).
      rewrite seq_nth by lia. cbn [option_map Nat.add]. rewrite bin_count_clean. f_equal.
      rewrite (filter_false_in _ specl), (filter_false_in _ missing); [cbn; lia| |].
      + intros r Hr. unfold goes_to. rewrite (dest_missing r Hr).
        replace (_ =? _) with false by lia. apply andb_false_r.
      + intros r Hr. unfold goes_to. destruct (dest_special r Hr) as (i & _ & Hi & ->).
        replace (_ =? _) with false by lia. apply andb_false_r.
    - rewrite nth_error_app2 by (rewrite length_counts; exact H1). rewrite length_counts.
      rewrite (filter_false_in _ clean).
      2:{ intros r Hr. unfold goes_to. destruct (dest_clean r Hr) as (z & _ & ->).
          pose proof (digitize_le splits z). replace (_ =? _) with false by lia. apply andb_false_r. }
      destruct (Nat.lt_ge_cases (k - S (length splits)) (n_special sp)) as [H2|H2].
      + rewrite nth_error_app1 by (rewrite length_sp_rows; exact H2).
        rewrite (filter_false_in _ missing).
        2:{ intros r Hr. unfold goes_to. rewrite (dest_missing r Hr).
            replace (_ =? _) with false by lia. apply andb_false_r. }
        cbn [map zsum]. rewrite Z.add_0_l, Z.add_0_r.
        set (i := (k - S (length splits))%nat) in *.
        assert (Hspec : forall l, (forall r, In r l -> In r specl) ->
          nth_error (sp_rows sp c l) i = Some (zsum (map row_w (filter (goes_to splits sp c k) l)))).
        { intros l Hl.
          assert (Hone : forall r, In r l -> goes_to splits sp c k r = cls_b c r &&
              match sp with SpDict d => match nth_error d i with Some kv => isin (snd kv) (row_x r) | None => false end
                          | _ => true end).
          { intros r Hr. unfold goes_to. f_equal. destruct (dest_special r (Hl r Hr)) as (j & Hj & Hjl & ->).
            destruct (Nat.eq_dec j i) as [->|Hne].
            - replace (_ =? _) with true by lia. destruct sp as [|l0|d]; try reflexivity.
              destruct Hj as (kv & Hkv & Hx). rewrite Hkv. symmetry. now apply isin_In.
            - replace (_ =? _) with false by lia. destruct sp as [|l0|d]; cbn in Hj, Hjl, H2.
              + lia.
              + lia.
              + destruct (nth_error d i) as [kv'|] eqn:Ei; [|reflexivity].
                symmetry. apply not_true_is_false. rewrite isin_In. intros Hx'.
                destruct Hj as (kv & Hkv & Hx). apply Hne. eapply Hd; eauto. }
          rewrite (filter_ext_in _ _ _ Hone).
          destruct sp as [|l0|d]; cbn [sp_rows n_special] in *.
          - replace i with 0%nat by lia. cbn. f_equal. f_equal. f_equal. apply filter_ext. intros r.
            now rewrite andb_true_r.
          - replace i with 0%nat by lia. cbn. f_equal. f_equal. f_equal. apply filter_ext. intros r.
            now rewrite andb_true_r.
          - rewrite nth_error_map. destruct (nth_error d i) as [kv|] eqn:Ei.
            + cbn. f_equal. f_equal. f_equal. rewrite filter_filter. apply filter_ext. intros r. apply andb_comm.
            + apply nth_error_None in Ei. lia. }
        apply Hspec. auto.
      + rewrite nth_error_app2 by (rewrite length_sp_rows; exact H2). rewrite length_sp_rows.
        replace (k - S (length splits) - n_special sp)%nat with 0%nat by lia. cbn [nth_error]. f_equal.
        rewrite (filter_false_in _ specl).
        2:{ intros r Hr. unfold goes_to. destruct (dest_special r Hr) as (i & _ & Hi & ->).
            replace (_ =? _) with false by lia. apply andb_false_r. }
        cbn [map zsum]. rewrite !Z.add_0_l. f_equal. f_equal. apply filter_ext_in. intros r Hr.
        unfold goes_to. rewrite (dest_missing r Hr). replace (_ =? _) with true by lia. now rewrite andb_true_r.
  Qed.
End Table.

Lemma map_trunc1 l : map (trunc 1) l = l.
Proof. unfold trunc. rewrite <- (map_id l) at 2. apply map_ext. intros; apply Z.quot_1_r. Qed.

Lemma to_csamples_rows (o : split_out) (c : list row) :
  x_clean o = map row_x c -> y_clean o = map row_y c -> sw_clean o = map row_w c ->
  to_csamples o = map (fun r => {| cx := num (row_x r); c0 := y_is0 (row_y r); cw := row_w r |}) c.
Proof.
  intros E1 E2 E3. unfold to_csamples. rewrite E1, E2, E3. clear. induction c as [|r c IH]; cbn; [reflexivity|]. now rewrite IH.
Qed.

Lemma finish_fit_rows solver sp xs ys sw pb f d splits0 :
  length xs = length ys -> length xs = length sw ->
  no_nan_y ys -> codes_ok sp -> sp_disjoint sp -> nondecreasing splits0 -> solver_ok solver ->
  let o := split_masks sp xs ys sw in
  refined 1 d (to_csamples o) splits0 pb ->
  finish_fit 1 solver sp o pb = Ok f ->
  let R := rows xs ys sw in
  nondecreasing (f_splits f) /\
  f_nev f = expected_rows (f_splits f) sp R true /\ f_ev f = expected_rows (f_splits f) sp R false.
Proof.
  intros H1 H2 Hy Hc Hd Hnd Hsol o Href Hf R.
  set (c := filter (fun r => negb (miss_b r) && negb (spec_b sp r)) R).
  assert (Ho : o = out_of sp R) by (apply split_masks_filter; assumption).
  assert (Hcs : to_csamples o = map (fun r => {| cx := num (row_x r); c0 := y_is0 (row_y r); cw := row_w r |}) c)
    by (rewrite Ho; apply to_csamples_rows; reflexivity).
  assert (Hnp : nondecreasing (pb_splits pb)).
  { destruct Href as [Hsub _ _ _]. clear -Hsub Hnd.
    induction Hsub as [l|x a b H IH|x a b H IH]; [constructor| |].
    - apply nondecr_inv in Hnd as [Hb Hx]. constructor; [exact (IH Hb)|].
      apply Forall_forall. intros y Hyy. apply Hx. eapply subseq_In; eauto.
    - apply nondecr_inv in Hnd as [Hb Hx]. auto. }
  destruct Href as [_ Hnev Hev _]. unfold finish_fit in Hf.
  rewrite Ho in Hf. cbn [out_of x_clean y_clean sw_clean x_missing y_missing sw_missing x_special y_special sw_special] in Hf.
  fold c in Hf. rewrite !target_info_rows in Hf.
  destruct (target_info_special_rows sp (filter (spec_b sp) R)) as [Es0 Es1].
  rewrite Es0, Es1 in Hf. cbn [fst snd] in Hf.
  destruct (pb_splits pb) as [|s r] eqn:Esp.
  - rewrite Hnev in Hf. cbn [length Nat.leb repeat optimal_splits bin_info_1] in Hf.
    unfold bin_info_1 in Hf. cbn [option_map map app] in Hf. injection Hf as <-. cbn [f_splits f_nev f_ev].
    unfold optimal_splits. cbn [Nat.leb].
    split; [constructor|].
    unfold expected_rows. fold c. rewrite !map_trunc1. unfold trunc. rewrite !Z.quot_1_r.
    unfold counts. cbn [length seq map app].
    assert (B : forall cl, bin_count 1 (digitize []) cl
        (map (fun r => {| cx := num (row_x r); c0 := y_is0 (row_y r); cw := row_w r |}) c) 0
        = zsum (map row_w (filter (cls_b cl) c))).
    { intros cl. unfold bin_count, trunc. rewrite Z.quot_1_r. cbn [digitize].
      rewrite (filter_ext _ (fun s => Bool.eqb (c0 s) cl)) by (intros z; cbn; apply andb_true_r).
      generalize c; clear. intros c. induction c as [|r c IH]; cbn [map filter]; [reflexivity|].
      cbn [c0]. unfold cls_b at 1.
      destruct (Bool.eqb (y_is0 (row_y r)) cl); cbn [map zsum cw]; rewrite IH; reflexivity. }
    rewrite !B. split; reflexivity.
  - rewrite <- Esp in *.
    assert (Hlen : length (pb_nev pb) = S (length (pb_splits pb)) /\ length (pb_ev pb) = S (length (pb_splits pb))).
    { rewrite Hnev, Hev. rewrite Esp at 1 4. split; apply length_counts. }
    destruct Hlen as [Ln Le].
    assert (Hgt : (length (pb_nev pb) <=? 1)%nat = false) by (rewrite Ln, Esp; cbn; reflexivity).
    rewrite Hgt in Hf. unfold optimal_splits in Hf. rewrite Hgt in Hf.
    destruct (Hsol (pb_nev pb) (pb_ev pb)) as [Hsl Hla]; [lia|rewrite Ln, Esp; cbn; lia|].
    set (sol := solver (pb_nev pb) (pb_ev pb)) in *.
    assert (Hne : sol <> []) by (intros Hn; rewrite Hn in Hsl; cbn in Hsl; lia).
    assert (M : forall cl, merge_loop 0 sol (counts 1 (digitize (pb_splits pb)) cl (to_csamples o) (S (length (pb_splits pb))))
        = Some (counts 1 (digitize (select (init sol) (pb_splits pb))) cl (to_csamples o)
                  (S (length (select (init sol) (pb_splits pb))))))
      by (intros cl; apply merge_counts_digitize; [exact Hnp|lia|exact Hla]).
    clearbody sol. rewrite Hnev, Hev in Hf. unfold bin_info_1 in Hf.
    destruct sol as [|b0 sol0] eqn:Esol; [congruence|]. rewrite <- Esol in *.
    rewrite !M in Hf. cbn [option_map] in Hf. injection Hf as <-. cbn [f_splits f_nev f_ev].
    split; [now apply select_nondecr|].
    unfold expected_rows. fold c. rewrite <- Hcs. rewrite !map_trunc1. unfold trunc. rewrite !Z.quot_1_r.
    cbn [map app]. split; reflexivity.
Qed.

Lemma C03_table d solver sp fixed user splits0 xs ys sw f :
  length xs = length ys -> length xs = length sw ->
  no_nan_y ys -> codes_ok sp -> sp_disjoint sp -> nondecreasing splits0 -> solver_ok solver ->
  fit_numerical 1 d solver sp fixed user splits0 xs ys sw = Some (Ok f) ->
  let n_rows := (S (length (f_splits f)) + n_special sp + 1)%nat in
  length (f_nev f) = n_rows /\ length (f_ev f) = n_rows /\
  forall k, (k < n_rows)%nat ->
    nth_error (f_nev f) k = Some (weight_of (goes_to (f_splits f) sp true k) (rows xs ys sw)) /\
    nth_error (f_ev f) k = Some (weight_of (goes_to (f_splits f) sp false k) (rows xs ys sw)).
Proof.
  intros H1 H2 Hy Hc Hd Hnd Hsol Hf n_rows. unfold fit_numerical in Hf.
  destruct (compute_prebins _ _ _ _ _ _ _ _ _) as [[pb|e]|] eqn:Ep; try discriminate.
  injection Hf as Hf. apply compute_prebins_refined in Ep.
  destruct (finish_fit_rows solver sp xs ys sw pb f d splits0) as (Hn & E1 & E2); auto.
  assert (Hry : forall r, In r (rows xs ys sw) -> row_y r <> YNaN).
  { intros r Hr. apply rows_In_y in Hr. intros Hn'. rewrite Hn' in Hr. contradiction. }
  destruct (expected_rows_spec (f_splits f) sp (rows xs ys sw) Hry Hc Hd true) as [L1 N1].
  destruct (expected_rows_spec (f_splits f) sp (rows xs ys sw) Hry Hc Hd false) as [L2 N2].
  rewrite E1, E2. split; [exact L1|]. split; [exact L2|]. intros k Hk. split; auto.
Qed.
