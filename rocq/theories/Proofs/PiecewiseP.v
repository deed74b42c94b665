From Coq Require Import List ZArith Reals Lra Lia Bool.
From Verif Require Import Model.Arr Model.Core Model.Metrics Model.Piecewise Spec.CoreSpec Spec.PiecewiseSpec
  Proofs.ArrP Proofs.CoreP Proofs.FitP Proofs.MetricsP.
Import ListNotations.
Open Scope R_scope.

(** * polynomials *)
Lemma polyval_rev c x : np_polyval (rev c) x = fold_right (fun a y => y * x + a) 0 c.
Proof. unfold np_polyval. rewrite <- fold_left_rev_right, rev_involutive. reflexivity. Qed.
Lemma rsum_map_scale {A} k (f : A -> R) l : rsum (map (fun a => f a * k) l) = rsum (map f l) * k.
Proof. induction l as [|a l IH]; cbn; [lra|]. rewrite IH. lra. Qed.
Lemma horner c x : fold_right (fun a y => y * x + a) 0 c = poly_at c x.
Proof.
  unfold poly_at. induction c as [|a c IH]; [reflexivity|].
  cbn [fold_right length seq map rsum nth]. rewrite IH. rewrite <- seq_shift, map_map.
  rewrite <- rsum_map_scale. cbn [nth pow].
  replace (rsum (map (fun i => nth i c 0 * x ^ i * x) (seq 0 (length c))))
    with (rsum (map (fun i => nth i c 0 * (x * x ^ i)) (seq 0 (length c)))) by (f_equal; apply map_ext; intros; lra).
  lra.
Qed.
Lemma polyval_poly c x : np_polyval (rev c) x = poly_at c x.
Proof. rewrite polyval_rev. apply horner. Qed.

(** * clipping *)
Lemma clip_nearest lb ub p : bounds_ok lb ub -> nearest lb ub p (clip lb ub p).
Proof.
  intros Hb. unfold clip, nearest, respects. destruct lb as [l|], ub as [u|].
  - specialize (Hb l u eq_refl eq_refl). split.
    + unfold Rmax, Rmin. split; intros ? [= <-]; repeat destruct (Rle_dec _ _); lra.
    + intros w [W1 W2]. specialize (W1 l eq_refl). specialize (W2 u eq_refl).
      unfold Rmax, Rmin, Rabs; repeat destruct (Rle_dec _ _); repeat destruct (Rcase_abs _); lra.
  - split.
    + unfold Rmax. split; [intros ? [= <-]; destruct (Rle_dec _ _); lra|discriminate].
    + intros w [W1 _]. specialize (W1 l eq_refl).
      unfold Rmax, Rabs; repeat destruct (Rle_dec _ _); repeat destruct (Rcase_abs _); lra.
  - split.
    + unfold Rmin. split; [discriminate|intros ? [= <-]; destruct (Rle_dec _ _); lra].
    + intros w [_ W2]. specialize (W2 u eq_refl).
      unfold Rmin, Rabs; repeat destruct (Rle_dec _ _); repeat destruct (Rcase_abs _); lra.
  - split; [split; discriminate|]. intros w _. replace (p - p) with 0 by lra. rewrite Rabs_R0. apply Rabs_pos.
Qed.
Lemma clip_crossed l u p : u < l -> clip (Some l) (Some u) p = u.
Proof. intros H. unfold clip, Rmax, Rmin. repeat destruct (Rle_dec _ _); lra. Qed.
Lemma nearest_inside lb ub p v : nearest lb ub p v -> respects lb ub p -> v = p.
Proof.
  intros [_ H] Hp. specialize (H p Hp). replace (p - p) with 0 in H by lra. rewrite Rabs_R0 in H.
  unfold Rabs in H. destruct (Rcase_abs _); lra.
Qed.

(** * one value *)
Lemma is_clean_num sp z : is_clean sp (XNum z) = true <-> ~ In (XNum z) (flat_codes sp).
Proof.
  unfold is_clean. cbn [x_isnull negb andb]. rewrite negb_true_iff, <- not_true_iff_false.
  destruct sp; [cbn; intuition discriminate| |]; rewrite isin_In; tauto.
Qed.
Lemma dict_none ms rates i d x cur : (forall kv, In kv d -> isin (snd kv) x = false) ->
  pw_special_dict ms rates i d x cur = cur.
Proof.
  revert i; induction d as [|[ky cs] d IH]; intros i H; cbn; [reflexivity|].
  pose proof (H (ky, cs) (or_introl eq_refl)) as H0. cbn in H0. rewrite H0.
  apply IH. intros kv Hkv; apply H; now right.
Qed.
Lemma special_clean ms rates sp z cur : ~ In (XNum z) (flat_codes sp) -> pw_special ms rates sp (XNum z) cur = cur.
Proof.
  intros H. destruct sp as [|l|d]; cbn [pw_special]; [reflexivity| |].
  - destruct (isin l (XNum z)) eqn:E; [|reflexivity]. apply isin_In in E. contradiction.
  - apply dict_none. intros kv Hkv. apply not_true_is_false. rewrite isin_In. intros Hx. apply H. cbn.
    apply in_concat. exists (snd kv). split; [now apply in_map|exact Hx].
Qed.
Definition sval (ms : marg R) (rates : list fval) (i : nat) : fval :=
  match ms with Empirical => nth i rates NaN | Const _ v => Fin v end.
Lemma dict_hit ms rates i0 d x cur i kv : dict_disjoint d -> nth_error d i = Some kv -> In x (snd kv) ->
  pw_special_dict ms rates i0 d x cur = sval ms rates (i0 + i).
Proof.
  revert i0 cur i; induction d as [|[ky cs] d IH]; intros i0 cur i Hd Hi Hx; [destruct i; discriminate|].
  cbn [pw_special_dict]. destruct i as [|i].
  - injection Hi as <-. cbn [snd] in Hx. assert (Hin := proj2 (isin_In cs x) Hx). rewrite Hin.
    rewrite dict_none; [rewrite Nat.add_0_r; reflexivity|].
    intros kv Hkv. apply In_nth_error in Hkv as [j Hj]. apply not_true_is_false. rewrite isin_In. intros Hc.
    assert (0%nat = S j) by (eapply (Hd 0%nat (S j)); cbn; eauto). lia.
  - rewrite (IH (S i0) _ i); [f_equal; lia| |exact Hi|exact Hx]. eapply dict_disjoint_tl; eauto.
Qed.
Lemma special_hit ms rates sp i x cur : sp_disjoint sp -> special_index sp i x -> pw_special ms rates sp x cur = sval ms rates i.
Proof.
  intros Hd Hi. destruct sp as [|l|d]; cbn in Hi; [destruct Hi| |].
  - destruct Hi as [-> Hi]. apply isin_In in Hi. cbn [pw_special]. rewrite Hi. reflexivity.
  - destruct Hi as (kv & Hkv & Hx). cbn [pw_special]. apply (dict_hit ms rates 0 d x cur i kv); assumption.
Qed.
Section One.
  Variables (val : Z -> R) (splits : list Z) (c : list (list R)) (lb ub : option R) (sp : special) (ms mm : marg R)
    (rates : list fval) (miss : fval).
  Lemma apply_clean z : ~ In (XNum z) (flat_codes sp) ->
    pw_apply val splits c lb ub sp ms mm rates miss (XNum z) = Fin (clean_value val splits c lb ub z).
  Proof.
    intros H. unfold pw_apply. rewrite (proj2 (is_clean_num sp z) H). cbn [x_isnull num]. now apply special_clean.
  Qed.
  Lemma apply_missing : pw_apply val splits c lb ub sp ms mm rates miss XNaN
    = match mm with Empirical => miss | Const _ v => Fin v end.
  Proof. reflexivity. Qed.
  Lemma apply_special z i : sp_disjoint sp -> special_index sp i (XNum z) ->
    pw_apply val splits c lb ub sp ms mm rates miss (XNum z) = sval ms rates i.
  Proof. intros Hd Hi. unfold pw_apply. cbn [x_isnull]. now apply special_hit. Qed.
End One.
Lemma special_not_clean sp i x : special_index sp i x -> is_clean sp x = false.
Proof.
  intros H. apply special_index_in in H. unfold is_clean. destruct sp; [discriminate| |]; rewrite H, andb_false_r; reflexivity.
Qed.

Lemma clean_value_nearest val splits c lb ub z i ci : nondecreasing splits -> bounds_ok lb ub ->
  in_bin_i splits i z -> nth_error c i = Some ci ->
  nearest lb ub (poly_at ci (val z)) (clean_value val splits c lb ub z).
Proof.
  intros Hs Hb Hi Hc. unfold clean_value.
  rewrite (in_bin_unique splits _ i z Hs (digitize_in_bin splits z Hs) Hi).
  rewrite (nth_error_nth _ _ _ Hc), polyval_poly. now apply clip_nearest.
Qed.

(** * WoE *)
Lemma woe_finite nonev ev er : 0 < nonev -> 0 < ev -> 0 < er < 1 -> woe_of nonev ev er = Fin (er_to_woe er nonev ev).
Proof.
  intros Hn He [H0 H1]. unfold woe_of, er_to_woe. destruct (Req_EM_T er 0); [lra|].
  destruct (Rlt_dec _ _) as [|H]; [reflexivity|]. exfalso. apply H.
  assert (1 < / er) by (rewrite <- Rinv_1; apply Rinv_lt_contravar; lra).
  unfold Rdiv. apply Rmult_lt_0_compat; [|now apply Rinv_0_lt_compat]. apply Rmult_lt_0_compat; lra.
Qed.
Lemma woe_not_finite nonev ev er : 0 < nonev -> 0 < ev -> er <= 0 \/ 1 <= er -> forall r, woe_of nonev ev er <> Fin r.
Proof.
  intros Hn He H r. unfold woe_of. destruct (Req_EM_T er 0) as [|Hne]; [discriminate|].
  destruct (Rlt_dec _ _) as [Ha|Ha]; [|destruct (Req_EM_T _ 0); discriminate].
  exfalso. assert (Hinv : 1 / er - 1 <= 0).
  { destruct H as [H|H].
    - assert (/ er < 0) by (apply Rinv_lt_0_compat; lra). lra.
    - assert (/ er <= 1) by (rewrite <- Rinv_1; apply Rinv_le_contravar; lra). lra. }
  assert (Hk : 0 < ev / nonev) by (apply Rdiv_lt_0_compat; assumption).
  replace ((1 / er - 1) * ev / nonev) with ((1 / er - 1) * (ev / nonev)) in Ha by (unfold Rdiv; ring).
  assert ((1 / er - 1) * (ev / nonev) <= 0).
  { rewrite <- (Rmult_0_l (ev / nonev)). apply Rmult_le_compat_r; lra. }
  lra.
Qed.

(** * counts *)
Lemma rows_ones xs ys : length xs = length ys ->
  rows xs ys (map (fun _ => 1%Z) xs) = map (fun xy => (xy, 1%Z)) (combine xs ys).
Proof.
  unfold rows. revert ys; induction xs as [|x xs IH]; intros [|y ys] H; cbn in *; try discriminate; [reflexivity|].
  f_equal. apply IH. lia.
Qed.
Lemma zsum_ones {A} (l : list A) : zsum (map (fun _ => 1%Z) l) = Z.of_nat (length l).
Proof. induction l as [|a l IH]; cbn [map zsum length]; [reflexivity|]. lia. Qed.
Lemma weights_ones (p : row -> bool) (l : list (xval * yval)) :
  zsum (map row_w (filter p (map (fun xy => (xy, 1%Z)) l))) = Z.of_nat (length (filter (fun xy => p (xy, 1%Z)) l)).
Proof.
  induction l as [|a l IH]; cbn [map filter]; [reflexivity|].
  destruct (p (a, 1%Z)); cbn [map zsum length row_w snd]; [rewrite IH; lia|exact IH].
Qed.
