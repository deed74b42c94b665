From Coq Require Import List ZArith Bool Reals Lra Lia.
From Verif Require Import Model.Arr Model.Core Model.Cat Model.Metrics Model.Scorecard
  Spec.CoreSpec Spec.CatSpec Spec.ScoreSpec Proofs.ArrP Proofs.CoreP Proofs.FitP Proofs.CatP Proofs.MetricsP Proofs.MetricsQ.
Import ListNotations.
Open Scope R_scope.

(** *** lmin / lmax *)
Lemma lmin_le l x : In x l -> lmin l <= x.
Proof.
  destruct l as [|a l]; [easy|]. cbn [lmin]. revert x. induction l as [|b l IH]; intros x H.
  - destruct H as [<-|[]]. cbn. lra.
  - cbn [fold_right]. destruct H as [<-|[<-|H]].
    + eapply Rle_trans; [apply Rmin_r|]. apply IH. now left.
    + apply Rmin_l.
    + eapply Rle_trans; [apply Rmin_r|]. apply IH. now right.
Qed.
Lemma lmin_in l : l <> [] -> In (lmin l) l.
Proof.
  destruct l as [|a l]; [easy|]. intros _. cbn [lmin]. induction l as [|b l IH]; [now left|].
  cbn [fold_right]. unfold Rmin at 1. destruct (Rle_dec _ _); [right; now left|].
  destruct IH as [E|H]; [left; exact E|right; right; exact H].
Qed.
Lemma lmax_ge l x : In x l -> x <= lmax l.
Proof.
  destruct l as [|a l]; [easy|]. cbn [lmax]. revert x. induction l as [|b l IH]; intros x H.
  - destruct H as [<-|[]]. cbn. lra.
  - cbn [fold_right]. destruct H as [<-|[<-|H]].
    + eapply Rle_trans; [|apply Rmax_r]. apply IH. now left.
    + apply Rmax_l.
    + eapply Rle_trans; [|apply Rmax_r]. apply IH. now right.
Qed.
Lemma lmax_in l : l <> [] -> In (lmax l) l.
Proof.
  destruct l as [|a l]; [easy|]. intros _. cbn [lmax]. induction l as [|b l IH]; [now left|].
  cbn [fold_right]. unfold Rmax at 1. destruct (Rle_dec _ _); [|right; now left].
  destruct IH as [E|H]; [left; exact E|right; right; exact H].
Qed.

(** *** Totals *)
Lemma Total_fun t ks s s' : Total t ks s -> Total t ks s' -> s = s'.
Proof.
  intros H. revert s'. induction H; intros s' H'; inversion H'; subst; [reflexivity|].
  f_equal; [congruence|auto].
Qed.
Lemma Total_ex t ks : choice t ks -> exists s, Total t ks s.
Proof.
  induction 1 as [|l k t ks Hk _ (s & IH)]; [exists 0; constructor|].
  apply nth_error_Some in Hk. destruct (nth_error l k) as [p|] eqn:E; [|easy]. exists (p + s). now constructor.
Qed.
Lemma Total_choice t ks s : Total t ks s -> choice t ks.
Proof. induction 1; constructor; [apply nth_error_Some; congruence|assumption]. Qed.
Lemma Total_affine a b t ks s : Total t ks s ->
  Total (mapt (fun p => a + b * p) t) ks (INR (length t) * a + b * s).
Proof.
  induction 1 as [|l t k ks p s Hp _ IH].
  - cbn. replace (0 * a + b * 0) with 0 by ring. constructor.
  - replace (INR (length (l :: t)) * a + b * (p + s)) with ((a + b * p) + (INR (length t) * a + b * s)).
    + cbn [mapt map]. constructor; [|exact IH]. rewrite nth_error_map, Hp. reflexivity.
    + cbn [length]. rewrite S_INR. ring.
Qed.
Lemma mapt_ext f g t : (forall x, f x = g x) -> mapt f t = mapt g t.
Proof. intros H. apply map_ext. intros l. now apply map_ext. Qed.
Lemma Total_bounds t ks s : Total t ks s -> rsum (map lmin t) <= s <= rsum (map lmax t).
Proof.
  induction 1 as [|l t k ks p s Hp _ IH]; cbn [map rsum]; [lra|]. apply nth_error_In in Hp.
  pose proof (lmin_le _ _ Hp). pose proof (lmax_ge _ _ Hp). lra.
Qed.
Lemma Total_min t : (forall l, In l t -> l <> []) -> exists ks, Total t ks (rsum (map lmin t)).
Proof.
  induction t as [|l t IH]; intros H; [exists []; constructor|].
  destruct IH as (ks & Hk); [intros; apply H; now right|].
  destruct (In_nth_error _ _ (lmin_in l (H l (or_introl eq_refl)))) as (k & E). exists (k :: ks). now constructor.
Qed.
Lemma Total_max t : (forall l, In l t -> l <> []) -> exists ks, Total t ks (rsum (map lmax t)).
Proof.
  induction t as [|l t IH]; intros H; [exists []; constructor|].
  destruct IH as (ks & Hk); [intros; apply H; now right|].
  destruct (In_nth_error _ _ (lmax_in l (H l (or_introl eq_refl)))) as (k & E). exists (k :: ks). now constructor.
Qed.
Lemma rows_nonempty t ks s : Total t ks s -> forall l, In l t -> l <> [].
Proof.
  induction 1 as [|l t k ks p s Hp _ IH]; intros l' [].
  - subst l'. intros ->. destruct k; discriminate.
  - now apply IH.
Qed.

(** *** scale *)
Definition raw_total_line (s : scaling) (reverse : bool) (intercept : R) (t : list (list R)) (x : R) : R :=
  let sense := if reverse then -1 else 1 in
  match s with
  | NoScaling => x
  | PdoOdds pdo odds pts => pts - pdo / ln 2 * (ln odds + sense * x + intercept)
  | MinMax a b =>
      let smin := rsum (map lmin t) in let smax := rsum (map lmax t) in
      let slope := sense * (a - b) / (smax - smin) in
      (if reverse then a else b) + slope * (x - smin)
  end.
Lemma scale_total s rev ic t ks x : t <> [] -> Total t ks x ->
  Total (scale s rev ic t) ks (raw_total_line s rev ic t x).
Proof.
  intros Hn H. assert (Hl : INR (length t) <> 0).
  { apply not_0_INR. destruct t; [easy|discriminate]. }
  destruct s as [|pdo odds pts|a b]; cbn [scale raw_total_line]; [exact H| |].
  - set (sense := if rev then -1 else 1). set (f := pdo / ln 2). set (n := INR (length t)) in *.
    rewrite (mapt_ext _ (fun p => ((pts - f * ln odds) / n - ic / n * f) + (- (sense * f)) * p)).
    2: { intros p. unfold Rdiv. ring. }
    apply (Total_affine ((pts - f * ln odds) / n - ic / n * f) (- (sense * f))) in H. fold n in H.
    replace (pts - f * (ln odds + sense * x + ic))
      with (n * ((pts - f * ln odds) / n - ic / n * f) + - (sense * f) * x); [exact H|]. field. exact Hl.
  - set (sense := if rev then -1 else 1). set (m := rsum (map lmin t)). set (M := rsum (map lmax t)).
    replace (ic + M - (ic + m)) with (M - m) by ring. set (slope := sense * (a - b) / (M - m)).
    set (n := INR (length t)) in *.
    set (base := (if rev then a - slope * (ic + m) else b - slope * (ic + m)) + slope * ic).
    apply (Total_affine (base / n) slope) in H. fold n in H.
    replace ((if rev then a else b) + slope * (x - m)) with (n * (base / n) + slope * x); [exact H|].
    replace (n * (base / n)) with base by (field; exact Hl). unfold base. destruct rev; ring.
Qed.
Lemma Total_map_inv f t ks s : Total (map (map f) t) ks s -> exists x, Total t ks x.
Proof.
  intros H. apply Total_ex. apply Total_choice in H. revert ks H. induction t as [|l t IH]; intros ks H; inversion H; subst.
  - constructor.
  - constructor; [now rewrite map_length in H2|now apply IH].
Qed.
Lemma scale_inv s rev ic t ks y : Total (scale s rev ic t) ks y -> exists x, Total t ks x.
Proof. destruct s; cbn [scale]; intros H; [eauto|eapply Total_map_inv; exact H|eapply Total_map_inv; exact H]. Qed.

(** *** intercept_based *)
Lemma ib_total t ks s : Total t ks s -> Total (fst (intercept_based t)) ks (s - snd (intercept_based t)).
Proof.
  unfold intercept_based. cbn [fst snd]. induction 1 as [|l t k ks p s Hp _ IH].
  - cbn. replace (0 - 0) with 0 by ring. constructor.
  - cbn [map rsum]. replace (p + s - (lmin l + rsum (map lmin t))) with ((p - lmin l) + (s - rsum (map lmin t))) by ring.
    constructor; [|exact IH]. rewrite nth_error_map, Hp. reflexivity.
Qed.
Lemma ib_choice t ks : choice (fst (intercept_based t)) ks -> choice t ks.
Proof.
  cbn [intercept_based fst]. revert ks. induction t as [|l t IH]; intros ks H; inversion H; subst; constructor.
  - now rewrite map_length in H2.
  - now apply IH.
Qed.

(** *** rint *)
Lemma rint_half x : Rabs (IZR (rint x) - x) <= 1 / 2.
Proof.
  pose proof (base_Int_part x) as [H1 H2]. unfold rint. set (f := Int_part x) in *. fold f.
  destruct (Rlt_dec _ _) as [A|A]; [apply Rabs_le; lra|].
  destruct (Rlt_dec _ _) as [B|B]; [rewrite plus_IZR; apply Rabs_le; lra|].
  destruct (Z.even f); [apply Rabs_le; lra|rewrite plus_IZR; apply Rabs_le; lra].
Qed.
Lemma rint_near x z : Rabs (x - IZR z) < 1 / 2 -> rint x = z.
Proof.
  intros H. pose proof (rint_half x) as H'. apply Rabs_def2 in H.
  assert (Hc : -1 < IZR (rint x) - IZR z < 1).
  { unfold Rabs in H'. destruct (Rcase_abs _) in H'; lra. }
  rewrite <- minus_IZR in Hc. assert (-1 < rint x - z < 1)%Z; [|lia].
  split; apply lt_IZR; lra.
Qed.
Lemma rint_IZR z : rint (IZR z) = z.
Proof. apply rint_near. rewrite Rminus_diag_eq by reflexivity. rewrite Rabs_R0. lra. Qed.
Lemma Total_rint t ks s : Total t ks s ->
  exists s', Total (mapt rintR t) ks s' /\ Rabs (s' - s) <= INR (length t) / 2.
Proof.
  induction 1 as [|l t k ks p s Hp _ (s' & IH & B)].
  - exists 0. split; [constructor|]. cbn. rewrite Rminus_0_r, Rabs_R0. lra.
  - exists (rintR p + s'). split.
    + constructor; [|exact IH]. rewrite nth_error_map, Hp. reflexivity.
    + cbn [length]. rewrite S_INR. pose proof (rint_half p). unfold rintR.
      replace (IZR (rint p) + s' - (p + s)) with ((IZR (rint p) - p) + (s' - s)) by ring.
      eapply Rle_trans; [apply Rabs_triang|]. lra.
Qed.

(** *** Scores of samples *)
Lemma not_code_clean sp z : ~ In (XNum z) (flat_codes sp) -> is_clean sp (XNum z) = true.
Proof.
  intros H. unfold is_clean. cbn [x_isnull negb andb]. destruct sp; [reflexivity| |]; apply negb_true_iff;
    (destruct (isin _ _) eqn:E; [apply isin_In in E; contradiction|reflexivity]).
Qed.
Lemma sv_index_row v x k : svar_ok v -> table_row v x k ->
  sv_index v x = Ok (Z.of_nat k) /\ (k < length (sv_metric v))%nat.
Proof.
  intros (Hd & Hl & Hb) H. unfold sv_index, table_row, n_bins_of in *. rewrite Hl. destruct (sv_bins v) as [splits|bins].
  - destruct x as [|z]; cbn [row_of] in H.
    + subst k. rewrite indices_missing. split; [reflexivity|lia].
    + destruct H as [(i & Hi & ->)|(Hn & Hi)].
      * rewrite (indices_special splits _ _ _ i Hd Hi). split; [reflexivity|].
        pose proof (special_index_lt _ _ _ Hi). lia.
      * assert (Hc : is_clean (sv_sp v) (XNum z) = true).
        { now apply not_code_clean. }
        rewrite indices_clean by exact Hc.
        assert (k = digitize splits z) as ->. { eapply in_bin_unique; [exact Hb|exact Hi|now apply digitize_in_bin]. }
        split; [reflexivity|]. pose proof (digitize_le splits z). lia.
  - destruct x as [|c].
    + subst k. unfold transform_indices_cat. rewrite cat_transform_missing. cbn [table_or_const use_table].
      split; [apply idx_seq; lia|lia].
    + destruct H as [(i & Hi & ->)|(Hn & Hi)].
      * unfold transform_indices_cat. pose proof (special_index_lt _ _ _ Hi).
        rewrite (cat_transform_special _ _ _ _ _ _ _ _ i Hd Hi). cbn [table_or_const use_table].
        split; [apply idx_seq; lia|lia].
      * assert (k < length bins)%nat. { destruct Hi as (b & E & _). apply nth_error_Some. congruence. }
        unfold transform_indices_cat. rewrite (cat_transform_listed _ _ _ _ _ _ _ _ k Hn Hi).
        2: { intros j Hj. now apply (Hb _ _ c). }
        split; [apply idx_seq; lia|lia].
Qed.
Lemma np_get_nat l k p : nth_error l k = Some p -> np_get l (Z.of_nat k) = Ok p.
Proof.
  intros E. unfold np_get. destruct (Z.ltb_spec (Z.of_nat k) 0); [lia|].
  destruct (Z.ltb_spec (Z.of_nat k) 0); [lia|]. rewrite Nat2Z.id, E. reflexivity.
Qed.
Lemma score_sum_total vars t xs ks s : Forall svar_ok vars -> sample_rows vars xs ks -> Total t ks s ->
  score_sum vars t xs = Ok s.
Proof.
  intros Hv H. revert t s Hv. induction H as [|v vars x xs k ks Hr _ IH]; intros t s Hv Ht.
  - inversion Ht; subst. reflexivity.
  - inversion Ht as [|l t' k' ks' p s' Hp Ht' E1 E2]; subst. inversion Hv; subst. cbn [score_sum].
    destruct (sv_index_row v x k) as [-> _]; [assumption|assumption|]. cbn [rbind].
    rewrite (np_get_nat _ _ _ Hp). cbn [rbind]. erewrite IH by eassumption. reflexivity.
Qed.

Lemma raw_points_length ms mm v : length (raw_points ms mm v) = length (sv_metric v).
Proof. unfold raw_points. rewrite length_map2, seq_length; [reflexivity|]. now rewrite seq_length. Qed.
Lemma raw_points_nth ms mm v k w : nth_error (sv_metric v) k = Some w ->
  nth_error (raw_points ms mm v) k
  = Some (raw_row ms mm (sv_coef v) (length (sv_metric v)) (n_special (sv_sp v)) k w).
Proof.
  intros E. unfold raw_points. rewrite map2_nth_error, E.
  rewrite (nth_error_nth' _ 0%nat) by (rewrite seq_length; apply nth_error_Some; congruence).
  rewrite seq_nth by (apply nth_error_Some; congruence). reflexivity.
Qed.
Lemma raw_row_value ms mm v x k : svar_ok v -> table_row v x k ->
  exists w, sv_value ms mm v x = Ok w /\ nth_error (raw_points ms mm v) k = Some (w * sv_coef v).
Proof.
  intros Hok H. destruct (sv_index_row v x k Hok H) as [_ Hk]. destruct Hok as (Hd & Hl & Hb).
  destruct (nth_error (sv_metric v) k) as [w0|] eqn:E; [|apply nth_error_None in E; lia].
  pose proof (raw_points_nth ms mm v k w0 E) as Hr. rewrite Hl in Hr.
  set (nb := n_bins_of v) in *. set (ns := n_special (sv_sp v)) in *.
  assert (Hcase : (x = XNaN /\ k = (nb + ns)%nat /\ sv_value ms mm v x = table_or_const MValue mm (sv_metric v) k)
    \/ (exists i, (i < ns)%nat /\ k = (nb + i)%nat /\ sv_value ms mm v x = table_or_const MValue ms (sv_metric v) k)
    \/ ((k < nb)%nat /\ sv_value ms mm v x = idx (sv_metric v) k)).
  { unfold sv_value, table_row, nb, ns, n_bins_of in *. destruct (sv_bins v) as [splits|bins].
    - destruct x as [|z]; cbn [row_of] in H.
      + left. subst k. split; [reflexivity|split; [reflexivity|]]. apply transform1_missing.
      + destruct H as [(i & Hi & ->)|(Hn & Hi)].
        * right; left. exists i. split; [eapply special_index_lt; exact Hi|split; [reflexivity|]]. now apply transform1_special.
        * right; right. pose proof (not_code_clean _ _ Hn) as Hc. rewrite transform1_clean by exact Hc.
          assert (k = digitize splits z) as ->. { eapply in_bin_unique; [exact Hb|exact Hi|now apply digitize_in_bin]. }
          split; [pose proof (digitize_le splits z); lia|reflexivity].
    - destruct x as [|c].
      + left. subst k. split; [reflexivity|split; [reflexivity|]]. apply cat_transform_missing.
      + destruct H as [(i & Hi & ->)|(Hn & Hi)].
        * right; left. exists i. split; [eapply special_index_lt; exact Hi|split; [reflexivity|]]. now apply cat_transform_special.
        * right; right. split; [destruct Hi as (b & Eb & _); apply nth_error_Some; congruence|].
          apply cat_transform_listed; [exact Hn|exact Hi|]. intros j Hj. now apply (Hb _ _ c). }
  assert (Hi : idx (sv_metric v) k = Ok w0) by (unfold idx; now rewrite E).
  unfold raw_row in Hr.
  destruct Hcase as [(_ & Ek & Ev)|[(i & Hi' & Ek & Ev)|(Hkb & Ev)]].
  - rewrite Ev. replace ((k + 2 <=? nb + ns + 1)%nat) with false in Hr by (symmetry; apply Nat.leb_gt; lia).
    rewrite andb_false_r in Hr. replace ((k =? nb + ns + 1 - 1)%nat) with true in Hr by (symmetry; apply Nat.eqb_eq; lia).
    destruct mm as [|ii a]; cbn [table_or_const use_table].
    + exists w0. split; [exact Hi|]. destruct ms; exact Hr.
    + exists a. split; [reflexivity|exact Hr].
  - rewrite Ev. replace ((nb + ns + 1 <=? k + 1 + ns)%nat) with true in Hr by (symmetry; apply Nat.leb_le; lia).
    replace ((k + 2 <=? nb + ns + 1)%nat) with true in Hr by (symmetry; apply Nat.leb_le; lia).
    replace ((k =? nb + ns + 1 - 1)%nat) with false in Hr by (symmetry; apply Nat.eqb_neq; lia).
    destruct ms as [|ii a]; cbn [table_or_const use_table].
    + exists w0. split; [exact Hi|]. destruct mm; exact Hr.
    + exists a. split; [reflexivity|]. destruct mm; exact Hr.
  - rewrite Ev. exists w0. split; [exact Hi|].
    replace ((nb + ns + 1 <=? k + 1 + ns)%nat) with false in Hr by (symmetry; apply Nat.leb_gt; lia).
    replace ((k =? nb + ns + 1 - 1)%nat) with false in Hr by (symmetry; apply Nat.eqb_neq; lia).
    destruct ms; destruct mm; exact Hr.
Qed.
Lemma raw_total ms mm vars xs ks : Forall svar_ok vars -> sample_rows vars xs ks ->
  exists l, linear_sum ms mm vars xs = Ok l /\ Total (map (raw_points ms mm) vars) ks l.
Proof.
  intros Hv H. induction H as [|v vars x xs k ks Hr _ IH].
  - exists 0. split; [reflexivity|constructor].
  - inversion Hv; subst. destruct (IH H2) as (l & El & Ht).
    destruct (raw_row_value ms mm v x k H1 Hr) as (w & Ew & En).
    exists (sv_coef v * w + l). cbn [linear_sum]. rewrite Ew. cbn [rbind]. rewrite El. split; [reflexivity|].
    cbn [map]. rewrite (Rmult_comm (sv_coef v)). now constructor.
Qed.
