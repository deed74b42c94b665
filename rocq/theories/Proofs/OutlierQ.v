From Coq Require Import List ZArith QArith Qabs Qround Lia Lqa Bool Arith Permutation Sorting.
From Verif Require Import Model.Arr Model.Core Model.Mdlp Model.Outlier Spec.CoreSpec Spec.OutlierSpec Proofs.ArrP Proofs.CoreP Proofs.MdlpP Proofs.OutlierP.
Import ListNotations.
Open Scope Z_scope.

(** ** unit changes *)
Section Affine.
Variables (a b : Z).
Hypothesis Ha : 0 < a.
Let f := fun x => a * x + b.
Lemma argmin_scale l : argmin (map (Z.mul a) l) = argmin l.
Proof.
  induction l as [|x r IH]; [reflexivity|]. destruct r as [|y r']; [reflexivity|]. set (r := y :: r') in *.
  change (argmin (map (Z.mul a) (x :: r))) with (if a * x <=? nth (argmin (map (Z.mul a) r)) (map (Z.mul a) r) 0 then 0%nat else S (argmin (map (Z.mul a) r))).
  change (argmin (x :: r)) with (if x <=? nth (argmin r) r 0 then 0%nat else S (argmin r)). rewrite IH.
  replace (nth (argmin r) (map (Z.mul a) r) 0) with (a * nth (argmin r) r 0).
  - destruct (Z.leb_spec (a * x) (a * nth (argmin r) r 0)), (Z.leb_spec x (nth (argmin r) r 0)); nia.
  - rewrite <- (Z.mul_0_r a) at 2. now rewrite map_nth.
Qed.
Lemma map2_sub_affine : forall u v, map2 Z.sub (map f u) (map f v) = map (Z.mul a) (map2 Z.sub u v).
Proof. induction u as [|x u IH]; intros [|y v]; cbn; [reflexivity..|]. rewrite IH. f_equal. unfold f. ring. Qed.
Lemma nth_f l i : (i < length l)%nat -> nth i (map f l) 0 = f (nth i l 0).
Proof. intros H. rewrite (nth_indep _ _ (f 0)) by (rewrite map_length; lia). apply map_nth. Qed.
Lemma interval_affine p xs : xs <> [] -> (0 <= r_length p)%Q -> (r_length p <= 1)%Q ->
  match interval p xs, interval p (map f xs) with
  | Ok (lb, ub), Ok (lb', ub') => (lb' == inject_Z a * lb + inject_Z b /\ ub' == inject_Z a * ub + inject_Z b)%Q
  | Err e, Err e' => e = e'
  | _, _ => False
  end.
Proof.
  intros Hne H0 H1. unfold interval. destruct (r_method p).
  - destruct (half_bounds _ H0 H1) as (A & B & C & D). cbn [eti]. split; now apply quantile_affine.
  - unfold hdi. unfold f. rewrite map_length, np_sort_map by exact Ha. fold f. set (k := n_included _ _). set (s := np_sort xs).
    rewrite skipn_map, firstn_map, map2_sub_affine. set (ci := map2 Z.sub _ _).
    destruct ci as [|c0 cr] eqn:Ec; [reflexivity|]. cbn [map]. change (a * c0 :: map (Z.mul a) cr) with (map (Z.mul a) (c0 :: cr)). rewrite argmin_scale, <- Ec.
    assert (Hci : ci <> []) by congruence. destruct (argmin_spec ci Hci) as (A1 & _). set (j := argmin ci) in *.
    assert (Hs : length s = length xs) by apply np_sort_length.
    assert (Hl : length ci = (length xs - k)%nat) by (unfold ci; rewrite map2_length', skipn_length, firstn_length, Hs; lia).
    rewrite !nth_f by lia. unfold f. rewrite !inject_Z_plus, !inject_Z_mult. split; reflexivity.
Qed.
Lemma qle_scale u v u' v' : (u' == inject_Z a * u + inject_Z b)%Q -> (v' == inject_Z a * v + inject_Z b)%Q -> Qle_bool u' v' = Qle_bool u v.
Proof.
  intros E1 E2. assert (Hq : (0 < inject_Z a)%Q) by (change 0%Q with (inject_Z 0); rewrite <- Zlt_Qlt; exact Ha).
  apply eq_true_iff_eq. rewrite !Qle_bool_iff, E1, E2. split; intros H.
  - apply Qplus_le_l in H. now apply Qmult_le_l in H.
  - apply Qplus_le_l. now apply Qmult_le_l.
Qed.
Lemma range_flag_affine p lb ub lb' ub' x : (lb' == inject_Z a * lb + inject_Z b)%Q -> (ub' == inject_Z a * ub + inject_Z b)%Q ->
  range_flag p lb' ub' (f x) = range_flag p lb ub x.
Proof.
  intros E1 E2. unfold range_flag. assert (Ex : (inject_Z (f x) == inject_Z a * inject_Z x + inject_Z b)%Q) by (unfold f; rewrite inject_Z_plus, inject_Z_mult; reflexivity).
  f_equal; f_equal; apply qle_scale; try exact Ex; rewrite E1, E2; ring.
Qed.
Lemma median2_affine xs : xs <> [] -> median2 (map f xs) = a * median2 xs + 2 * b.
Proof.
  intros Hne. assert (Hn : (0 < length xs)%nat) by (destruct xs; [congruence|cbn; lia]). unfold median2. unfold f. rewrite map_length, np_sort_map by exact Ha. fold f.
  assert (Hs : length (np_sort xs) = length xs) by apply np_sort_length.
  rewrite !nth_f; [unfold f; ring| |]; rewrite Hs;
    [apply Nat.div_lt; lia|pose proof (Nat.div_le_upper_bound (length xs - 1) 2 (length xs - 1) ltac:(lia) ltac:(lia)); lia].
Qed.
Lemma dev2_affine xs x : xs <> [] -> dev2 (map f xs) (f x) = a * dev2 xs x.
Proof.
  intros Hne. unfold dev2. rewrite median2_affine by exact Hne. unfold f. replace (2 * (a * x + b) - (a * median2 xs + 2 * b)) with (a * (2 * x - median2 xs)) by ring.
  rewrite Z.abs_mul. now rewrite (Z.abs_eq a) by lia.
Qed.
End Affine.
Lemma mad4_affine a b xs : 0 < a -> xs <> [] -> mad4 (map (fun x => a * x + b) xs) = a * mad4 xs.
Proof.
  intros Ha Hne. unfold mad4. rewrite map_map. rewrite (map_ext _ (fun x => a * dev2 xs x + 0)) by (intros x; rewrite dev2_affine by assumption; ring).
  rewrite <- (map_map (dev2 xs) (fun x => a * x + 0)). rewrite median2_affine; [ring|exact Ha|]. intros E. apply map_eq_nil in E. contradiction.
Qed.
Lemma fit1_affine d a b xs : 0 < a -> fit1 d (map (fun x => a * x + b) xs) = fit1 d xs.
Proof.
  intros Ha. destruct d as [p|t]; cbn [fit1].
  - unfold range_fit. destruct (Qle_bool 0 (r_length p) && Qle_bool (r_length p) 1) eqn:E; cbn [negb]; [|reflexivity].
    apply andb_true_iff in E as [E1 E2]. apply Qle_bool_iff in E1, E2.
    destruct xs as [|x0 xr]; [reflexivity|]. set (xs := x0 :: xr). pose proof (interval_affine a b Ha p xs ltac:(discriminate) E1 E2) as H.
    destruct (interval p xs) as [[lb ub]|e], (interval p (map _ xs)) as [[lb' ub']|e']; try contradiction; [|subst; reflexivity].
    cbn [rbind fst snd]. f_equal. rewrite map_map. apply map_ext. intros x. apply (range_flag_affine a b Ha p lb ub lb' ub' x); apply H.
  - unfold zscore_fit. destruct (negb (Qle_bool 0 t)); [reflexivity|]. f_equal. rewrite map_map. destruct xs as [|x0 xr]; [reflexivity|]. set (xs := x0 :: xr).
    apply map_ext. intros x. rewrite mad4_affine, dev2_affine by (try exact Ha; discriminate).
    destruct (Z.eqb_spec (mad4 xs) 0) as [E|E].
    + rewrite E, Z.mul_0_r. cbn [Z.eqb]. f_equal. destruct (Z.eqb_spec (dev2 xs x) 0) as [Ed|Ed], (Z.eqb_spec (a * dev2 xs x) 0); try reflexivity; nia.
    + destruct (Z.eqb_spec (a * mad4 xs) 0) as [E'|E']; [nia|]. f_equal.
      assert (Eq : ((6745 # 10000) * inject_Z (2 * (a * dev2 xs x)) / inject_Z (a * mad4 xs) == (6745 # 10000) * inject_Z (2 * dev2 xs x) / inject_Z (mad4 xs))%Q).
      { rewrite !inject_Z_mult. field. split; intros H; (change 0%Q with (inject_Z 0) in H; apply (proj1 (inject_Z_injective _ _)) in H; lia). }
      apply eq_true_iff_eq. rewrite !Qle_bool_iff. now rewrite Eq.
Qed.

(** ** the order of the samples does not matter *)
Lemma interval_perm p xs xs' : Permutation xs xs' -> interval p xs = interval p xs'.
Proof.
  intros H. unfold interval, eti, hdi, quantile. now rewrite (np_sort_eq _ _ H), (Permutation_length H).
Qed.
Lemma median2_perm xs xs' : Permutation xs xs' -> median2 xs = median2 xs'.
Proof. intros H. unfold median2. now rewrite (np_sort_eq _ _ H), (Permutation_length H). Qed.
Lemma fit1_perm d xs xs' m : Permutation xs xs' -> fit1 d xs = Ok m -> exists f, m = map f xs /\ fit1 d xs' = Ok (map f xs').
Proof.
  intros HP. destruct d as [p|t]; cbn [fit1]; intros H.
  - destruct (range_fit_inv p xs m H) as (H0 & H1 & lb & ub & Hi & ->). exists (range_flag p lb ub). split; [reflexivity|].
    unfold range_fit. apply Qle_bool_iff in H0, H1. rewrite H0, H1. cbn [andb negb]. rewrite <- (interval_perm p xs xs' HP), Hi. reflexivity.
  - destruct (zscore_fit_inv t xs m H) as (H0 & ->). exists (z_flag t xs). split; [reflexivity|]. unfold zscore_fit. apply Qle_bool_iff in H0. rewrite H0. cbn [negb].
    f_equal. assert (Ed : forall x, dev2 xs' x = dev2 xs x) by (intros x; unfold dev2; now rewrite (median2_perm _ _ HP)).
    assert (Em : mad4 xs' = mad4 xs). { unfold mad4. rewrite (map_ext _ _ Ed). apply median2_perm, Permutation_map, Permutation_sym, HP. }
    apply map_ext. intros x. now rewrite Em, !Ed.
Qed.
Lemma combine_map {A B} (f : A -> B) l : combine l (map f l) = map (fun x => (x, f x)) l.
Proof. induction l as [|a r IH]; cbn; [reflexivity|]. now rewrite IH. Qed.
