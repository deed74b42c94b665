(** Selection criteria, scaling parameters, arguments of transform, and the
    options one class hands to another. *)
From Coq Require Import ZArith QArith List String Bool Lia.
From Verif Require Import Model.Arr Model.Options Spec.OptionSpec Proofs.OptionP Proofs.OptionQ.
Import ListNotations.
Open Scope string_scope.
Open Scope list_scope.

(** ** Selection criteria *)
Lemma str_eqb_spec : forall a b, (a = b /\ String.eqb a b = true) \/ (a <> b /\ String.eqb a b = false).
Proof.
  intros a b. destruct (String.eqb a b) eqn:E.
  - left. split; [now apply String.eqb_eq | reflexivity].
  - right. split; [now apply String.eqb_neq | reflexivity].
Qed.

Lemma metric_max_bounded : forall m, In m ["gini"; "quality_score"] -> metric_max m = NFin 1.
Proof. intros m [<-|[<-|[]]]; reflexivity. Qed.
Lemma metric_max_free : forall m, ~ In m ["gini"; "quality_score"] -> metric_max m = NPosInf.
Proof.
  intros m H. unfold metric_max.
  destruct (str_eqb_spec m "gini") as [[E ->]|[N ->]]; [subst; cbn in H; tauto|].
  destruct (str_eqb_spec m "quality_score") as [[E ->]|[N' ->]]; [subst; cbn in H; tauto|].
  reflexivity.
Qed.

Lemma in_dec_str : forall m (l : list string), In m l \/ ~ In m l.
Proof. intros m l. destruct (in_dec string_dec m l); tauto. Qed.

Lemma c_criterion_ok : forall m k v, c_criterion m (k, v) = None <-> criterion m k v.
Proof.
  intros m k v. unfold c_criterion, criterion.
  destruct (str_eqb_spec k "min") as [[E ->]|[N1 ->]].
  { subst k. rewrite on_operand_none. split.
    - intros (x & O & G). apply guard_none in G. left. split; auto. exists x.
      split; [now apply operand_compares|]. destruct x as [| | |q]; auto; try discriminate.
      right; right. exists q. split; auto. now apply Qle_negb_negb.
    - intros [(_ & x & C & H)|[(A & _)|[(A & _)|(A & _)]]]; try discriminate.
      exists x. split; [now apply operand_compares|]. apply guard_none.
      destruct H as [->|[->|(q & -> & L)]]; try reflexivity. cbn. now apply Qle_negb_negb. }
  destruct (str_eqb_spec k "max") as [[E ->]|[N2 ->]].
  { subst k. rewrite on_operand_none.
    destruct (in_dec_str m ["gini"; "quality_score"]) as [B|B].
    - rewrite (metric_max_bounded m B). split.
      + intros (x & O & G). apply guard_none in G. right; left. split; auto. exists x.
        split; [now apply operand_compares|]. destruct x as [| | |q]; auto; try discriminate.
        right; right; right. exists q. split; auto. intros _. now apply Qle_negb_negb in G.
      + intros [(A & _)|[(_ & x & C & H)|[(A & _)|(A & _)]]]; try discriminate.
        exists x. split; [now apply operand_compares|]. apply guard_none.
        destruct H as [->|[->|[[_ X]|(q & -> & L)]]]; try reflexivity; [contradiction|].
        cbn. apply Qle_negb_negb. auto.
    - rewrite (metric_max_free m B). split.
      + intros (x & O & G). right; left. split; auto. exists x.
        split; [now apply operand_compares|]. destruct x as [| | |q]; auto.
        right; right; right. exists q. split; auto. contradiction.
      + intros [(A & _)|[(_ & x & C & H)|[(A & _)|(A & _)]]]; try discriminate.
        exists x. split; [now apply operand_compares|]. apply guard_none.
        destruct H as [->|[->|[[-> X]|(q & -> & L)]]]; reflexivity. }
  destruct (str_eqb_spec k "strategy") as [[E ->]|[N3 ->]].
  { subst k. rewrite c_in_ok. intuition discriminate. }
  destruct (str_eqb_spec k "top") as [[E ->]|[N4 ->]].
  { subst k. destruct (is_integral v) eqn:I.
    - split.
      + intros H. right; right; right. split; auto. left. apply c_int_ge_ok.
        unfold c_int_ge. now rewrite I.
      + intros [(A & _)|[(A & _)|[(A & _)|(_ & H)]]]; try discriminate.
        destruct H as [H|(H & _)].
        * apply c_int_ge_ok in H. unfold c_int_ge in H. now rewrite I in H.
        * apply whole_integral in I. destruct I as [z Z]. now apply H in Z.
    - assert (forall z, ~ whole v z) as NW.
      { intros z W. assert (exists z, whole v z) as X by eauto.
        apply whole_integral in X. congruence. }
      rewrite on_operand_none. split.
      + intros (x & O & G). apply guard_none in G. right; right; right. split; auto.
        right. split; auto. destruct x as [| | |q]; try discriminate.
        exists q. split; [now apply operand_compares|].
        cbn in G. now rewrite andb_true_iff, !Qlt_negb in G.
      + intros [(A & _)|[(A & _)|[(A & _)|(_ & H)]]]; try discriminate.
        destruct H as [(z & W & _)|(_ & q & C & L)]; [now apply NW in W|].
        exists (NFin q). split; [now apply operand_compares|]. apply guard_none.
        cbn. now rewrite andb_true_iff, !Qlt_negb. }
  split; [discriminate|]. intuition.
Qed.

Lemma criteria_ok : forall t l, check_criteria t l = None <-> criteria t l.
Proof.
  intros t l. unfold check_criteria, criteria.
  rewrite first_err_cons, guard_none, forallb_forall, first_err_none, Forall_map, Forall_forall.
  split.
  - intros [M D] m v H. split.
    + apply metrics_ok. apply (M (m, v) H).
    + specialize (D (m, v) H). cbn in D. destruct v; try discriminate.
      exists l0. split; auto. intros k x K.
      rewrite first_err_none, Forall_map, Forall_forall in D.
      apply c_criterion_ok. apply (D (k, x) K).
  - intros H. split.
    + intros [m v] K. apply metrics_ok. apply (H m v K).
    + intros [m v] K. cbn. destruct (H m v K) as (_ & info & -> & I).
      rewrite first_err_none, Forall_map, Forall_forall. intros [k x] X.
      apply c_criterion_ok. auto.
Qed.

(** ** Scaling *)
Lemma assoc_in : forall k l v, NoDup (map fst l) -> (assoc k l = Some v <-> In (k, v) l).
Proof.
  induction l as [|[k' v'] l IH]; intros v N; cbn; [intuition discriminate|].
  inversion N as [|x y X Y]; subst.
  destruct (str_eqb_spec k k') as [[-> ->]|[D ->]].
  - split.
    + intros [= ->]. now left.
    + intros [[= ->]|H]; auto. exfalso. apply X. apply (in_map fst) in H. exact H.
  - rewrite (IH v Y). split; [now right|]. intros [[= -> _]|H]; [contradiction | exact H].
Qed.

Lemma same_keys_ok : forall l keys,
  same_keys l keys = true <-> (forall k, In k (map fst l) <-> In k keys).
Proof.
  intros l keys. unfold same_keys. rewrite andb_true_iff, !forallb_forall. split.
  - intros [A B] k. split.
    + rewrite in_map_iff. intros (p & <- & P). apply existsb_str. now apply A.
    + intros K. specialize (B k K). apply existsb_exists in B. destruct B as (p & P & E).
      apply String.eqb_eq in E. subst. now apply in_map.
  - intros H. split.
    + intros p P. apply existsb_str. apply H. now apply in_map.
    + intros k K. apply H in K. apply in_map_iff in K. destruct K as (p & <- & P).
      apply existsb_exists. exists p. split; auto. apply String.eqb_refl.
Qed.

Lemma param_in : forall k l v, NoDup (map fst l) -> In (k, v) l -> param l k = v.
Proof. intros k l v N H. unfold param. now rewrite (proj2 (assoc_in k l v N) H). Qed.

Lemma positive_ok : forall v,
  (if is_number v then on_operand v (fun x => guard (negb (num_le x (fin 0))) ValueError)
   else Some ValueError) = None <-> real_or_top (fun q => (0 < q)%Q) v.
Proof.
  intros v. unfold real_or_top. destruct (is_number v) eqn:N.
  - rewrite (number_check v (fun x => negb (num_le x (fin 0))) (fun q => (0 < q)%Q) true true N);
      try reflexivity.
    + intuition.
    + intros q. cbn. apply Qlt_negb.
  - split; [discriminate|]. intros [(q & R & _)|[->| ->]]; try discriminate.
    apply real_number in R. congruence.
Qed.

Lemma pdo_ok : forall rounding target l, NoDup (map fst l) ->
  (check_scaling true rounding target l = None <-> target = "binary" /\ pdo_params l).
Proof.
  intros rounding target l N. unfold check_scaling, pdo_params.
  rewrite first_err_app, !first_err_cons, first_err_nil, !guard_none, String.eqb_eq, same_keys_ok.
  rewrite first_err_none, Forall_map, Forall_forall.
  split.
  - intros [(T & K & _) P]. split; auto. split; auto. intros k v H.
    assert (In k ["pdo"; "odds"; "scorecard_points"]) as I
      by (apply K; apply (in_map fst) in H; exact H).
    specialize (P k I). cbv beta in P. rewrite (param_in k l v N H) in P. now apply positive_ok.
  - intros (T & K & P). split; [auto|]. intros k I. apply K in I.
    apply in_map_iff in I. destruct I as ([k' v] & E & H). cbn in E. subst k'.
    rewrite (param_in k l v N H). apply positive_ok. now apply (P k).
Qed.

Lemma whole_number_ok : forall v, is_number v = true ->
  (c_whole v = None <-> whole_number v).
Proof.
  intros v N. unfold c_whole, whole_number. rewrite on_operand_none. split.
  - intros (x & O & G). apply (number_operand v x N) in O.
    assert (exists q, real v q /\ x = NFin q) as (q & R & ->).
    { destruct O as [O|O]; auto. subst v. destruct x as [| | |q]; try discriminate.
      exists q. split; [constructor | reflexivity]. }
    apply guard_none, Z.eqb_eq in G.
    exists q, (Qnum q / Zpos (Qden q))%Z. split; auto.
    unfold Qeq. cbn. rewrite Z.mul_1_r.
    pose proof (Z.div_mod (Qnum q) (Zpos (Qden q))). lia.
  - intros (q & z & R & E). exists (NFin q). split; [now apply real_operand|].
    apply guard_none, Z.eqb_eq. unfold Qeq in E. cbn in E. rewrite Z.mul_1_r in E.
    rewrite E. apply Z.mod_mul. discriminate.
Qed.

Lemma min_max_ok : forall rounding target l, NoDup (map fst l) ->
  (check_scaling false rounding target l = None <-> min_max_params rounding l).
Proof.
  intros rounding target l N. unfold check_scaling, min_max_params.
  rewrite first_err_app, !first_err_cons, first_err_nil, !guard_none, same_keys_ok.
  assert (first_err (if rounding then [c_whole (param l "min"); c_whole (param l "max")] else []) = None
          <-> (rounding = true -> c_whole (param l "min") = None /\ c_whole (param l "max") = None)) as R.
  { destruct rounding; [rewrite !first_err_cons, first_err_nil | rewrite first_err_nil];
      intuition discriminate. }
  rewrite R. clear R.
  assert (forall x y, negb (num_lt y x) = true <->
     (x = NNaN \/ y = NNaN \/ x = NNegInf \/ y = NPosInf \/
      exists p q, x = NFin p /\ y = NFin q /\ (p <= q)%Q)) as L.
  { intros x y. split.
    - destruct x as [| | |p], y as [| | |q]; cbn; auto 6; try discriminate.
      rewrite Qle_negb_negb. intros H. do 4 right. eauto.
    - intros [->|[->|[->|[->|(p & q & -> & -> & H)]]]]; try reflexivity.
      + now destruct y.
      + now destruct y.
      + now destruct x.
      + cbn. now apply Qle_negb_negb. }
  split.
  - intros [(K & A & B & C & _) W]. split; auto. intros a b HA HB.
    rewrite (param_in _ _ _ N HA), (param_in _ _ _ N HB) in *.
    rewrite on_operand_none in C. destruct C as (x & X & C).
    rewrite on_operand_none in C. destruct C as (y & Y & C).
    apply operand_compares in X. apply operand_compares in Y.
    apply guard_none in C. apply L in C.
    split; [eauto|]. split; [now apply a_number_iff|]. split; [eauto|].
    split; [now apply a_number_iff|]. split.
    + intros x' y' X' Y'. rewrite (compares_fun _ _ _ X' X), (compares_fun _ _ _ Y' Y). exact C.
    + intros E. destruct (W E) as [W1 W2]. split; apply whole_number_ok; auto.
  - intros (K & H).
    assert (exists a, In ("min", a) l) as (a & HA).
    { assert (In "min" (map fst l)) as I by (apply K; cbn; auto).
      apply in_map_iff in I. destruct I as ([k v] & E & I). cbn in E. subst. eauto. }
    assert (exists b, In ("max", b) l) as (b & HB).
    { assert (In "max" (map fst l)) as I by (apply K; cbn; auto).
      apply in_map_iff in I. destruct I as ([k v] & E & I). cbn in E. subst. eauto. }
    rewrite (param_in _ _ _ N HA), (param_in _ _ _ N HB).
    destruct (H a b HA HB) as ((x & X) & NA & (y & Y) & NB & O & W).
    apply a_number_iff in NA. apply a_number_iff in NB.
    split.
    + split; [exact K|]. split; [exact NA|]. split; [exact NB|]. split; [|exact I].
      rewrite on_operand_none. exists x. split; [now apply operand_compares|].
      rewrite on_operand_none. exists y. split; [now apply operand_compares|].
      apply guard_none, L. auto.
    + intros E. destruct (W E) as [W1 W2]. split; apply whole_number_ok; auto.
Qed.

(** ** Arguments of transform *)
Lemma metric_values_ok : forall s m, check_metric_values s m = None <-> metric_values s m.
Proof.
  intros s m. unfold check_metric_values, metric_values.
  rewrite !first_err_cons, first_err_nil.
  assert (match m with
          | VStr s => guard (String.eqb s "empirical") ValueError
          | _ => guard (is_number m) ValueError end = None <->
          (m = VStr "empirical" \/ a_number m)) as M.
  { rewrite <- a_number_iff. destruct m; cbn; rewrite ?guard_none;
      try (split; [discriminate | intros [H|H]; discriminate]);
      try (split; [now right | reflexivity]).
    rewrite String.eqb_eq. split; [intros ->; now left | intros [[= ->]|H]; [reflexivity | discriminate]]. }
  rewrite M. clear M.
  assert (match s with
    | VStr s => guard (String.eqb s "empirical") ValueError
    | VDict l => first_err (map (fun p => guard (is_number (snd p)) ValueError) l)
    | _ => guard (is_number s) ValueError end = None <->
    (s = VStr "empirical" \/ a_number s \/
     exists l, s = VDict l /\ forall k v, In (k, v) l -> a_number v)) as S.
  { rewrite <- a_number_iff. destruct s; cbn; rewrite ?guard_none;
      try (split; [discriminate | intros [H|[H|(l' & H & _)]]; discriminate]);
      try (split; [now right; left | reflexivity]).
    - rewrite String.eqb_eq. split; [intros ->; now left|].
      intros [[= ->]|[H|(l' & H & _)]]; [reflexivity | discriminate | discriminate].
    - rewrite first_err_none, Forall_map, Forall_forall. split.
      + intros H. right; right. exists l. split; auto. intros k v K.
        specialize (H (k, v) K). cbn in H. apply a_number_iff. now apply guard_none in H.
      + intros [H|[H|(l' & [= <-] & H)]]; try discriminate.
        intros [k v] K. cbn. apply guard_none, a_number_iff. eauto. }
  rewrite S. tauto.
Qed.

Lemma is_int_iff : forall v,
  is_int v = true <-> (exists b, v = VBool b) \/ exists z, v = VInt false z.
Proof.
  intros v. split.
  - destruct v as [|b|[] z| | | | | | | | |]; try discriminate; eauto.
  - intros [[b ->]|[z ->]]; reflexivity.
Qed.

Lemma unknown_other : forall metric v,
  metric <> "bins" -> metric <> "indices" -> ~ In metric ["woe"; "event_rate"; "mean"] ->
  unknown_value metric v.
Proof.
  intros metric v A B C. unfold unknown_value. right.
  repeat match goal with
  | |- match ?x with _ => _ end => is_var x; destruct x; auto
  end; exfalso; (congruence || (apply C; cbn; tauto)).
Qed.

Lemma unknown_ok : forall metric v, check_cat_unknown metric v = None <-> unknown_value metric v.
Proof.
  intros metric v. unfold check_cat_unknown.
  rewrite given_none, !first_err_cons, first_err_nil, !guard_none, !orb_true_iff, !negb_true_iff.
  rewrite str_iff, is_int_iff, a_number_iff.
  destruct (string_dec metric "bins") as [->|N1].
  { unfold unknown_value. cbn. intuition discriminate. }
  destruct (string_dec metric "indices") as [->|N2].
  { unfold unknown_value. cbn. intuition discriminate. }
  destruct (in_dec string_dec metric ["woe"; "event_rate"; "mean"]) as [I|I].
  { destruct I as [<-|[<-|[<-|[]]]]; unfold unknown_value; cbn; intuition discriminate. }
  split; intros H; [now apply unknown_other|].
  right. apply String.eqb_neq in N1. apply String.eqb_neq in N2. rewrite N1, N2.
  split; auto. split; auto. split; auto. left.
  destruct (existsb (String.eqb metric) ["woe"; "event_rate"; "mean"]) eqn:E; auto.
  apply existsb_str in E. contradiction.
Qed.

Lemma build_ok : forall d t, check_build d t = None <-> int_between 0 8 d /\ a_bool t.
Proof.
  intros d t. unfold check_build.
  rewrite !first_err_cons, first_err_nil, c_int_range_ok, c_bool_ok. tauto.
Qed.

(** ** Options handed on *)
Definition unchanged (keys : list string) (a b : opts) : Prop := forall k, In k keys -> a k = b k.

Lemma none_ok : forall P, optional P VNone.
Proof. intros P. now left. Qed.
Lemma int_limits_none : int_limits VNone VNone.
Proof.
  split; [now left|]. split; [now left|].
  intros p q R. apply real_number in R. discriminate.
Qed.
Lemma ordered_none : forall a, ordered a VNone.
Proof. intros a p q _ R. apply real_number in R. discriminate. Qed.
Lemma not_below_int : forall n, (0 <= n)%Z -> not_below 0 (vint n).
Proof.
  intros n H. left. exists (inject_Z n). split; [constructor; constructor|].
  change 0%Q with (inject_Z 0). now apply Qle_inject.
Qed.
Lemma unit_zero : real_in unit_interval (vint 0).
Proof.
  exists (inject_Z 0). split; [constructor; constructor|]. split; discriminate.
Qed.
Lemma name_in : forall s l, In s l -> named l (VStr s).
Proof. intros. now constructor. Qed.

(** a piecewise fit gets past both checks *)
Definition pw_needs (problem_type : string) (o : opts) : Prop :=
  pw_options problem_type o /\ int_at_least 2 (o "max_n_prebins") /\
  (problem_type <> "regression" -> outlier_options ["range"; "zscore"] o).

Lemma pw_inner_trend : forall o pt, pw_options pt o ->
  optional (named all_trends) (pw_inner o "monotonic_trend").
Proof.
  intros o pt H. unfold pw_options in H. decompose [and] H.
  unfold pw_inner. cbn [String.eqb Ascii.eqb Bool.eqb].
  change (String.eqb "monotonic_trend" "monotonic_trend") with true. cbv iota.
  destruct (py_in (o "monotonic_trend") ["concave"; "convex"]).
  - right. apply name_in. cbn. auto 15.
  - match goal with T : optional (named _) (o "monotonic_trend") |- _ => destruct T as [->|T] end.
    + now left.
    + right. match goal with T : named _ (o "monotonic_trend") |- _ =>
        remember (o "monotonic_trend") as t; clear - T; induction T as [s S|v V IH] end.
      * constructor. unfold all_trends. cbn in S |- *. intuition.
      * constructor. exact IH.
Qed.

Lemma pw_fit_checks : forall pt o, fit_checks_pw pt o = None <-> pw_needs pt o.
Proof.
  intros pt o. unfold fit_checks_pw, pw_needs.
  rewrite !first_err_cons, first_err_nil, pw_ok.
  destruct (String.eqb pt "regression") eqn:R.
  - apply String.eqb_eq in R. rewrite continuous_ok. split.
    + intros (P & C & _). split; [exact P|]. split; [|contradiction].
      unfold continuous_options, prebin_options in C. decompose [and] C. assumption.
    + intros (P & M & _). split; [exact P|]. split; [|exact I].
      pose proof (pw_inner_trend o pt P) as T.
      unfold pw_options in P. decompose [and] P.
      unfold continuous_options, prebin_options.
      do 2 (split; [first [assumption | apply name_in; cbn; auto]|]).
      split; [assumption|]. split; [split; assumption|]. split; [assumption|].
      split; [exact T|]. split; [now apply not_below_int|].
      split; [assumption|]. split; [now apply not_below_int|].
      split; [assumption|]. split; [split; now left|].
      split; [assumption|]. split; [now left|]. split; [assumption|].
      split; [now apply not_below_int|]. now exists false.
  - apply String.eqb_neq in R. rewrite binary_ok. split.
    + intros (P & C & _). split; [exact P|].
      unfold binary_options, prebin_options in C. decompose [and] C.
      split; [assumption | intros _; assumption].
    + intros (P & M & Q). split; [exact P|]. split; [|exact I]. specialize (Q R).
      pose proof (pw_inner_trend o pt P) as T.
      unfold pw_options in P. decompose [and] P.
      unfold binary_options, prebin_options.
      do 2 (split; [first [assumption | apply name_in; cbn; auto]|]).
      split; [match goal with H : named ["cart"; "quantile"; "uniform"] (o "prebinning_method") |- _ =>
         change (named ["cart"; "mdlp"; "quantile"; "uniform"] (o "prebinning_method"));
         revert H; generalize (o "prebinning_method"); intros v V; clear - V;
         induction V as [s S|v V IH]; constructor; [cbn in S |- *; tauto | exact IH] end|].
      do 2 (split; [apply name_in; cbn; auto|]).
      split; [split; assumption|]. split; [assumption|].
      split; [split; apply int_limits_none|].
      split; [exact T|]. split; [apply unit_zero|].
      split; [assumption|]. split; [now apply not_below_int|].
      split; [exact Q|]. split; [now left|]. split; [split; now left|].
      split; [assumption|]. split; [now left|]. split; [assumption|].
      split; [apply name_in; cbn; auto|].
      split; [now apply not_below_int|]. now exists false.
Qed.

Definition good_dtype (v : pyv) : Prop := v = VStr "numerical" \/ v = VStr "categorical".

Lemma bins_sizes_pass : forall o (i : opts), bins_and_sizes o ->
  i "min_n_bins" = o "min_n_bins" -> i "max_n_bins" = o "max_n_bins" ->
  i "min_bin_size" = o "min_bin_size" -> i "max_bin_size" = VNone ->
  bins_and_sizes i.
Proof.
  intros o i [A B] E1 E2 E3 E4. unfold bins_and_sizes. rewrite E1, E2, E3, E4.
  split; [exact A|]. destruct B as (B & _ & _). split; [exact B|]. split; [now left|].
  apply ordered_none.
Qed.

Lemma process_inner_binary : forall o name dtype,
  process_options o -> good_dtype dtype ->
  (check_binary (process_inner (VStr name) dtype o) = None).
Proof.
  intros o name dtype P D. apply binary_ok.
  unfold process_options, prebin_options in P. decompose [and] P. clear P.
  unfold binary_options, prebin_options.
  split; [now exists name|].
  split; [destruct D as [-> | ->]; apply name_in; cbn; auto|].
  do 3 (split; [apply name_in; cbn; auto|]).
  split; [split; assumption|].
  split; [eapply bins_sizes_pass; try eassumption; reflexivity|].
  split; [split; apply int_limits_none|].
  split; [right; apply name_in; cbn; auto 15|]. split; [apply unit_zero|].
  split; [assumption|]. split; [now apply not_below_int|].
  split; [now left|]. split; [now left|]. split; [split; now left|].
  split; [split; [now left|]; now left|]. split; [assumption|]. split; [assumption|].
  split; [apply name_in; cbn; auto|].
  split; [now apply not_below_int|]. now exists false.
Qed.

Lemma process_inner_continuous : forall o name dtype,
  process_options o -> good_dtype dtype ->
  (check_continuous (process_inner (VStr name) dtype o) = None).
Proof.
  intros o name dtype P D. apply continuous_ok.
  unfold process_options, prebin_options in P. decompose [and] P. clear P.
  unfold continuous_options, prebin_options.
  split; [now exists name|].
  split; [destruct D as [-> | ->]; apply name_in; cbn; auto|].
  split; [apply name_in; cbn; auto|].
  split; [split; assumption|].
  split; [eapply bins_sizes_pass; try eassumption; reflexivity|].
  split; [right; apply name_in; cbn; auto 15|]. split; [now apply not_below_int|].
  split; [assumption|]. split; [now apply not_below_int|].
  split; [now left|]. split; [split; now left|].
  split; [split; [now left|]; now left|]. split; [assumption|]. split; [assumption|].
  split; [now apply not_below_int|]. now exists false.
Qed.

Lemma process_inner_multiclass : forall o name dtype,
  process_options o ->
  (check_multiclass (process_inner (VStr name) dtype o) = None).
Proof.
  intros o name dtype P. apply multiclass_ok.
  unfold process_options, prebin_options in P. decompose [and] P. clear P.
  unfold multiclass_options, prebin_options.
  split; [now exists name|].
  do 2 (split; [apply name_in; cbn; auto|]).
  split; [split; assumption|].
  split; [eapply bins_sizes_pass; try eassumption; reflexivity|].
  split; [right; left; exists "auto"; cbn; auto|]. split; [apply unit_zero|].
  split; [assumption|].
  split; [now left|].
  split; [split; [now left|]; now left|]. split; [assumption|]. split; [assumption|].
  split; [apply name_in; cbn; auto|].
  split; [now apply not_below_int|]. now exists false.
Qed.

Lemma process_sketch_inner : forall o name dtype,
  process_sketch_options o -> good_dtype dtype ->
  (check_sketch (process_inner (VStr name) dtype o) = None).
Proof.
  intros o name dtype P D. apply sketch_ok.
  unfold process_sketch_options in P. decompose [and] P. clear P.
  unfold sketch_options.
  split; [now exists name|].
  split; [destruct D as [-> | ->]; apply name_in; cbn; auto|].
  split; [apply name_in; cbn; auto|].
  split; [exists (1 # 10000)%Q; split; [constructor | split; discriminate]|].
  split; [exists 25%Z; split; [constructor | lia]|].
  do 2 (split; [apply name_in; cbn; auto|]).
  split; [assumption|].
  split; [eapply bins_sizes_pass; try eassumption; reflexivity|].
  split; [split; apply int_limits_none|].
  split; [right; apply name_in; cbn; auto 15|]. split; [apply unit_zero|].
  split; [assumption|]. split; [now apply not_below_int|].
  split; [split; now left|]. split; [now exists false|].
  split; [assumption|]. split; [assumption|].
  split; [apply name_in; cbn; auto|].
  split; [now apply not_below_int|]. now exists false.
Qed.

(** a sketch accepted by OptimalBinningSketch is accepted by BSketch *)
Lemma sketch_bsketch : forall o, sketch_options o -> check_bsketch o = None.
Proof.
  intros o S. apply bsketch_ok. unfold sketch_options in S. decompose [and] S.
  split; [assumption|]. split; [|split; assumption].
  left. match goal with E : real_in _ (o "eps") |- _ => destruct E as (q & R & _) end.
  apply a_number_iff. eapply real_number; eauto.
Qed.

(** ** The exceptions *)
Definition usual (e : exn) : Prop := e = ValueError \/ e = TypeError.
Definition usual_opt (c : option exn) : Prop := forall e, c = Some e -> usual e.

Lemma usual_first : forall l, Forall usual_opt l -> usual_opt (first_err l).
Proof.
  induction l as [|[x|] l IH]; intros H e E; cbn in E; [discriminate | |].
  - injection E as ->. inversion H; subst. now apply (H2 e).
  - inversion H; subst. now apply IH.
Qed.
Lemma usual_none : usual_opt None.
Proof. intros e H. discriminate. Qed.
Lemma usual_v : usual_opt (Some ValueError).
Proof. intros e [= <-]. now left. Qed.
Lemma usual_t : usual_opt (Some TypeError).
Proof. intros e [= <-]. now right. Qed.
Lemma usual_guard_v : forall b, usual_opt (guard b ValueError).
Proof. intros []; [apply usual_none | apply usual_v]. Qed.
Lemma usual_guard_t : forall b, usual_opt (guard b TypeError).
Proof. intros []; [apply usual_none | apply usual_t]. Qed.
Lemma usual_given : forall v c, usual_opt c -> usual_opt (given v c).
Proof. intros v c H. unfold given. destruct (is_none v); [apply usual_none | exact H]. Qed.
Fixpoint usual_operand (v : pyv) : forall e, operand v = inr e -> usual e.
Proof.
  intros e. destruct v as [|b|np z|f| |b|s|l|l|l|l|a b c s]; cbn;
    try (intros [= <-]; now right); try discriminate.
  destruct l as [|x [|y l]]; [intros [= <-]; now left | apply usual_operand | intros [= <-]; now left].
Defined.
Lemma usual_on : forall v f, (forall x, usual_opt (f x)) -> usual_opt (on_operand v f).
Proof.
  intros v f H. unfold on_operand. destruct (operand v) as [x|e] eqn:E; [apply H|].
  intros e' [= <-]. now apply usual_operand in E.
Qed.
Lemma usual_if : forall (b : bool) c d, usual_opt c -> usual_opt d -> usual_opt (if b then c else d).
Proof. intros [] c d C D; assumption. Qed.
Lemma usual_app : forall l r, Forall usual_opt l -> Forall usual_opt r -> Forall usual_opt (l ++ r).
Proof. intros. apply Forall_app. now split. Qed.

Ltac usual1 :=
  match goal with
  | |- usual_opt None => apply usual_none
  | |- usual_opt (Some ValueError) => apply usual_v
  | |- usual_opt (Some TypeError) => apply usual_t
  | |- usual_opt (guard _ ValueError) => apply usual_guard_v
  | |- usual_opt (guard _ TypeError) => apply usual_guard_t
  | |- usual_opt (given _ _) => apply usual_given
  | |- usual_opt (on_operand _ _) => apply usual_on; intros
  | |- usual_opt (first_err _) => apply usual_first
  | |- usual_opt (if _ then _ else _) => apply usual_if
  | |- usual_opt (match ?x with _ => _ end) => destruct x
  | |- Forall usual_opt (_ ++ _) => apply usual_app
  | |- Forall usual_opt (_ :: _) => constructor
  | |- Forall usual_opt [] => constructor
  | |- Forall usual_opt (map _ _) => apply Forall_map, Forall_forall; intros
  | |- usual_opt _ => progress unfold c_str, c_in, c_bool, c_int_ge, c_int_range,
      c_half_open, c_half_open_raw, c_unit, c_not_below, c_le, c_arraylike, c_special,
      c_outlier, c_class_weight, c_user_splits, c_digits, c_limit, c_trend_multi,
      c_eps_bsketch, c_estimator
  | |- Forall usual_opt _ => progress unfold c_bins_sizes, c_event_counts, c_pvalue, c_cat,
      c_axes, c_trends_2d, c_tail_2d
  end.

Definition class_checks : list (opts -> option exn) :=
  [check_binary; check_continuous; check_multiclass; check_sketch; check_bsketch;
   check_scenarios; check_2d; check_cont_2d; check_pw "classification"; check_pw "regression";
   check_process; check_process_sketch; check_scorecard; check_monitoring; check_mdlp].

Lemma usual_errors : forall c o, In c class_checks -> usual_opt (c o).
Proof.
  intros c o H. unfold class_checks in H. cbn [In] in H.
  repeat (destruct H as [<-|H]); [..|contradiction];
  unfold check_binary, check_continuous, check_multiclass, check_sketch, check_bsketch,
    check_scenarios, check_2d, check_cont_2d, check_pw, check_process, check_process_sketch,
    check_scorecard, check_monitoring, check_mdlp;
  repeat usual1.
Qed.
