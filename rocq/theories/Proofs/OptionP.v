(** Each idiom of the checks accepts exactly what the documentation allows. *)
From Coq Require Import ZArith QArith List String Bool Lia.
From Verif Require Import Model.Arr Model.Options Spec.OptionSpec.
Import ListNotations.
Open Scope string_scope.
Open Scope list_scope.

Lemma first_err_none : forall l, first_err l = None <-> Forall (fun c => c = None) l.
Proof.
  induction l as [|[e|] l IH]; cbn; split; intros H; auto.
  - discriminate.
  - inversion H; discriminate.
  - constructor; [reflexivity | now apply IH].
  - inversion H; subst; now apply IH.
Qed.

Lemma first_err_cons : forall c l,
  first_err (c :: l) = None <-> c = None /\ first_err l = None.
Proof. intros [e|] l; cbn; split; intuition discriminate. Qed.

Lemma first_err_nil : first_err [] = None <-> True.
Proof. cbn. tauto. Qed.

Lemma first_err_app : forall l r,
  first_err (l ++ r) = None <-> first_err l = None /\ first_err r = None.
Proof.
  induction l as [|[e|] l IH]; intros r; cbn; [tauto | intuition discriminate | apply IH].
Qed.

(** the exception is that of one of the statements, all before having passed *)
Lemma first_err_some : forall l e,
  first_err l = Some e <->
  exists a b, l = a ++ Some e :: b /\ first_err a = None.
Proof.
  induction l as [|[e'|] l IH]; intros e; cbn.
  - split; [discriminate | intros (a & b & H & _); destruct a; discriminate].
  - split.
    + intros [= ->]. now exists [], l.
    + intros (a & b & H & N). destruct a as [|c a]; cbn in H.
      * now injection H as -> ->.
      * injection H as <- H. discriminate.
  - rewrite IH. split; intros (a & b & H & N).
    + exists (None :: a), b. now rewrite H.
    + destruct a as [|c a]; cbn in H; [discriminate|].
      injection H as <- H. now exists a, b.
Qed.

Lemma guard_none : forall b e, guard b e = None <-> b = true.
Proof. intros [] e; cbn; intuition discriminate. Qed.

Lemma given_none : forall v c, given v c = None <-> v = VNone \/ c = None.
Proof. intros v c. unfold given. destruct v; cbn; intuition discriminate. Qed.

Lemma c_str_ok : forall v, c_str v = None <-> a_string v.
Proof.
  intros v. unfold c_str, a_string. rewrite guard_none.
  destruct v; cbn; split; intros H; try discriminate; try (destruct H; discriminate); eauto.
Qed.
Lemma c_bool_ok : forall v, c_bool v = None <-> a_bool v.
Proof.
  intros v. unfold c_bool, a_bool. rewrite guard_none.
  destruct v; cbn; split; intros H; try discriminate; try (destruct H; discriminate); eauto.
Qed.

Lemma existsb_str : forall s names, existsb (String.eqb s) names = true <-> In s names.
Proof.
  intros s names. rewrite existsb_exists. split.
  - intros (x & H & E). apply String.eqb_eq in E. now subst.
  - intros H. exists s. split; [auto | apply String.eqb_refl].
Qed.

Fixpoint py_in_ok (v : pyv) (names : list string) {struct v} :
  py_in v names = true <-> named names v.
Proof.
  destruct v as [|b|np z|f| |b|s|l|l|l|l|a b c s];
    try (split; [discriminate | intros H; inversion H; fail]).
  - cbn. rewrite existsb_str. split.
    + now constructor.
    + intros H. now inversion H.
  - destruct l as [|x [|y l]]; cbn.
    + split; [discriminate | intros H; inversion H].
    + rewrite (py_in_ok x names). split.
      * intros H. constructor. exact H.
      * intros H. inversion H. assumption.
    + split; [discriminate | intros H; inversion H].
Defined.

Lemma named_iff : forall n m v, (forall s, In s n <-> In s m) -> named n v -> named m v.
Proof.
  intros n m v E H. induction H as [s H|v H IH]; constructor; [apply E, H | exact IH].
Qed.

Lemma c_in_ok : forall v names, c_in v names = None <-> named names v.
Proof. intros. unfold c_in. now rewrite guard_none, py_in_ok. Qed.

Lemma c_in_perm : forall v n m,
  (forall s, In s n <-> In s m) -> c_in v n = None <-> named m v.
Proof.
  intros v n m E. rewrite c_in_ok. split; apply named_iff; auto. symmetry; apply E.
Qed.

(** ** Numbers *)

Lemma whole_integral : forall v, is_integral v = true <-> exists z, whole v z.
Proof.
  intros v. split.
  - destruct v; try discriminate.
    + destruct b; eexists; constructor.
    + intros _. eexists; constructor.
  - intros [z H]. now destruct H.
Qed.

Lemma whole_operand : forall v z, whole v z -> operand v = inl (NFin (inject_Z z)).
Proof. intros v z H. now destruct H. Qed.

Lemma whole_fun : forall v y z, whole v y -> whole v z -> y = z.
Proof. intros v y z H K. destruct H; inversion K; auto. Qed.

Lemma a_number_iff : forall v, is_number v = true <-> a_number v.
Proof.
  intros v. unfold a_number. split.
  - destruct v; try discriminate; intros _.
    + left. destruct b; eexists; constructor.
    + left. eexists; constructor.
    + right; left; eauto.
    + now right; right.
  - intros [[z H]|[[f ->]| ->]]; [now destruct H | reflexivity | reflexivity].
Qed.

(** a number that compares: real, an infinity or nan *)
Lemma number_operand : forall v x,
  is_number v = true ->
  (operand v = inl x <-> (exists q, real v q /\ x = NFin q) \/ (v = VFloat x)).
Proof.
  intros v x N. destruct v; try discriminate; cbn.
  - split.
    + intros [= <-]. left. destruct b; eexists; split; try reflexivity.
      * apply (real_whole _ 1). constructor.
      * apply (real_whole _ 0). constructor.
    + intros [(q & H & ->)|H]; [|discriminate].
      inversion H as [w z W|]; subst. inversion W; reflexivity.
  - split.
    + intros [= <-]. left. eexists; split; [|reflexivity]. constructor. constructor.
    + intros [(q & H & ->)|H]; [|discriminate].
      inversion H as [w y W|]; subst. inversion W; reflexivity.
  - split.
    + intros [= <-]. now right.
    + intros [(q & H & ->)|[= ->]]; [|reflexivity].
      inversion H as [w y W|]; subst; [inversion W | reflexivity].
  - split; [discriminate|].
    intros [(q & H & ->)|H]; [|discriminate].
    inversion H as [w y W|]; subst. inversion W.
Qed.

Lemma real_number : forall v q, real v q -> is_number v = true.
Proof. intros v q H. destruct H as [v z W|q]; [now destruct W | reflexivity]. Qed.

Lemma real_operand : forall v q, real v q -> operand v = inl (NFin q).
Proof.
  intros v q H. apply number_operand; [now apply real_number in H | eauto].
Qed.

Lemma real_fun : forall v p q, real v p -> real v q -> p = q.
Proof.
  intros v p q H K. apply real_operand in H. apply real_operand in K. congruence.
Qed.

Lemma Qlt_negb : forall p q, negb (Qle_bool q p) = true <-> (p < q)%Q.
Proof.
  intros p q. rewrite negb_true_iff. split.
  - intros H. apply Qnot_le_lt. intros L. apply Qle_bool_iff in L. congruence.
  - intros H. destruct (Qle_bool q p) eqn:E; auto.
    apply Qle_bool_iff in E. exfalso. eapply Qlt_not_le; eauto.
Qed.

Lemma Qle_negb_negb : forall p q, negb (negb (Qle_bool q p)) = true <-> (q <= p)%Q.
Proof. intros. rewrite negb_involutive. apply Qle_bool_iff. Qed.

Lemma on_operand_none : forall v f,
  on_operand v f = None <-> exists x, operand v = inl x /\ f x = None.
Proof.
  intros v f. unfold on_operand. destruct (operand v) as [x|e].
  - split; [eauto | intros (y & [= <-] & H); exact H].
  - split; [discriminate | intros (y & H & _); discriminate].
Qed.

(** a numeric range check on a number, given what the test means *)
Lemma number_check : forall (v : pyv) (t : num -> bool) (P : Q -> Prop) (inf nan : bool),
  is_number v = true ->
  (forall q, t (NFin q) = true <-> P q) ->
  t NNaN = nan -> t NPosInf = inf -> t NNegInf = false ->
  (on_operand v (fun x => guard (t x) ValueError) = None <->
   real_in P v \/ (inf = true /\ v = VFloat NPosInf) \/ (nan = true /\ v = VFloat NNaN)).
Proof.
  intros v t P inf nan N T TN TP TI. rewrite on_operand_none. split.
  - intros (x & O & G). apply guard_none in G.
    apply (number_operand v x N) in O. destruct O as [(q & R & ->)|E].
    + left. exists q. split; auto. now apply T.
    + subst v. destruct x as [| | |q]; try congruence.
      * right; right. split; congruence.
      * right; left. split; congruence.
      * left. exists q. split; [constructor | now apply T].
  - intros [(q & R & H)|[(E & ->)|(E & ->)]].
    + exists (NFin q). split; [now apply real_operand | apply guard_none, T, H].
    + exists NPosInf. split; [reflexivity | apply guard_none; congruence].
    + exists NNaN. split; [reflexivity | apply guard_none; congruence].
Qed.

Lemma c_half_open_ok : forall hi v,
  c_half_open hi v = None <-> real_in (between_open_closed hi) v.
Proof.
  intros hi v. unfold c_half_open, c_half_open_raw. destruct (is_number v) eqn:N.
  - rewrite (number_check v (fun x => num_lt (fin 0) x && num_le x (fin hi))
               (between_open_closed hi) false false N); try reflexivity.
    + intuition discriminate.
    + intros q. cbn. rewrite andb_true_iff, Qlt_negb, Qle_bool_iff. reflexivity.
  - split; [discriminate|]. intros (q & R & _). apply real_number in R. congruence.
Qed.

Lemma c_unit_ok : forall v, c_unit v = None <-> real_in unit_interval v.
Proof.
  intros v. unfold c_unit. destruct (is_number v) eqn:N.
  - rewrite (number_check v (fun x => num_le (fin 0) x && num_le x (fin 1))
               unit_interval false false N); try reflexivity.
    + intuition discriminate.
    + intros q. cbn. rewrite andb_true_iff, !Qle_bool_iff. reflexivity.
  - split; [discriminate|]. intros (q & R & _). apply real_number in R. congruence.
Qed.

Lemma c_not_below_ok : forall lo v, c_not_below lo v = None <-> not_below lo v.
Proof.
  intros lo v. unfold c_not_below, not_below, real_or_top. destruct (is_number v) eqn:N.
  - rewrite (number_check v (fun x => negb (num_lt x (fin lo)))
               (fun q => (lo <= q)%Q) true true N); try reflexivity.
    + intuition.
    + intros q. cbn. apply Qle_negb_negb.
  - split; [discriminate|]. intros [(q & R & _)|[->| ->]]; try discriminate.
    apply real_number in R. congruence.
Qed.

Lemma Qle_inject : forall a b, (inject_Z a <= inject_Z b)%Q <-> (a <= b)%Z.
Proof. intros. now rewrite <- Zle_Qle. Qed.

Lemma c_int_ge_ok : forall k v, c_int_ge k v = None <-> int_at_least k v.
Proof.
  intros k v. unfold c_int_ge, int_at_least. destruct (is_integral v) eqn:N.
  - apply whole_integral in N. destruct N as [z W].
    unfold on_operand. rewrite (whole_operand v z W), guard_none. cbn.
    rewrite Qle_negb_negb, Qle_inject. split; [eauto|].
    intros (y & Y & H). now rewrite (whole_fun _ _ _ W Y).
  - split; [discriminate|]. intros (z & W & _).
    assert (exists z, whole v z) as I by eauto. apply whole_integral in I. congruence.
Qed.

Lemma c_int_range_ok : forall m v, c_int_range m v = None <-> int_between 0 m v.
Proof.
  intros k v. unfold c_int_range, int_between. destruct (is_integral v) eqn:N.
  - apply whole_integral in N. destruct N as [z W].
    unfold on_operand. rewrite (whole_operand v z W), guard_none. cbn.
    change 0%Q with (inject_Z 0).
    rewrite andb_true_iff, !Qle_bool_iff, !Qle_inject. split; [eauto|].
    intros (y & Y & H). now rewrite (whole_fun _ _ _ W Y).
  - split; [discriminate|]. intros (z & W & _).
    assert (exists z, whole v z) as I by eauto. apply whole_integral in I. congruence.
Qed.

(** ** Comparisons without a type check *)
Fixpoint operand_compares (v : pyv) : forall x, operand v = inl x <-> compares v x.
Proof.
  intros x. destruct v as [|b|np z|f| |b|s|l|l|l|l|a b c s]; cbn;
    try (split; [discriminate | intros H; inversion H as [w y W| | |]; inversion W; fail]).
  - split.
    + intros [= <-]. destruct b.
      * apply (cmp_whole _ 1). constructor.
      * apply (cmp_whole _ 0). constructor.
    + intros H. inversion H as [w y W| | |]; subst. now inversion W.
  - split.
    + intros [= <-]. constructor. constructor.
    + intros H. inversion H as [w y W| | |]; subst. now inversion W.
  - split.
    + intros [= <-]. constructor.
    + intros H. inversion H as [w y W| | |]; subst; [now inversion W | reflexivity].
  - split.
    + intros [= <-]. constructor.
    + intros H. inversion H as [w y W| | |]; subst; [now inversion W | reflexivity].
  - destruct l as [|y [|y' l]].
    + split; [discriminate | intros H; inversion H as [w k W| | |]; inversion W].
    + rewrite (operand_compares y x). split.
      * intros H. constructor. exact H.
      * intros H. inversion H as [w k W| | |]; [inversion W | assumption].
    + split; [discriminate | intros H; inversion H as [w k W| | |]; inversion W].
Defined.

Lemma compares_fun : forall v x y, compares v x -> compares v y -> x = y.
Proof.
  intros v x y H K. apply operand_compares in H. apply operand_compares in K. congruence.
Qed.

Lemma compares_loosely : forall (P : Q -> Prop) v,
  (exists q, compares v (NFin q) /\ P q) <-> loosely P v.
Proof.
  intros P v. split.
  - intros (q & C & H). remember (NFin q) as x eqn:E. revert q E H.
    induction C as [v z W|f|b|v x C IH]; intros q E H.
    + injection E as <-. constructor. exists (inject_Z z). split; [now constructor | exact H].
    + subst f. constructor. exists q. split; [constructor | exact H].
    + injection E as <-. now constructor.
    + apply loose_arr. eapply IH; eauto.
  - induction 1 as [v (q & R & H)|b H|v H IH].
    + exists q. split; [|exact H]. apply operand_compares. now apply real_operand.
    + eexists. split; [constructor | exact H].
    + destruct IH as (q & C & K). exists q. split; [now constructor | exact K].
Qed.

Lemma c_half_open_raw_ok : forall hi v,
  c_half_open_raw hi v = None <-> loosely (between_open_closed hi) v.
Proof.
  intros hi v. unfold c_half_open_raw. rewrite on_operand_none, <- compares_loosely. split.
  - intros (x & O & G). apply guard_none in G. destruct x as [| | |q]; try discriminate.
    exists q. split; [now apply operand_compares|].
    cbn in G. now rewrite andb_true_iff, Qlt_negb, Qle_bool_iff in G.
  - intros (q & C & H). exists (NFin q). split; [now apply operand_compares|].
    apply guard_none. cbn. now rewrite andb_true_iff, Qlt_negb, Qle_bool_iff.
Qed.

(** ** Pairs of limits *)
Lemma c_le_ok : forall a b,
  (a = VNone \/ exists p, real a p) -> (b = VNone \/ exists q, real b q) ->
  (c_le a b = None <-> ordered a b).
Proof.
  intros a b A B. unfold c_le, ordered. rewrite given_none, given_none. split.
  - intros [->|[->|H]] p q P Q.
    + apply real_number in P. discriminate.
    + apply real_number in Q. discriminate.
    + unfold on_operand in H. rewrite (real_operand _ _ P), (real_operand _ _ Q) in H.
      apply guard_none in H. cbn in H. now apply Qle_negb_negb in H.
  - intros H. destruct A as [->|[p P]]; [now left|]. destruct B as [->|[q Q]]; [now right; left|].
    right; right. unfold on_operand. rewrite (real_operand _ _ P), (real_operand _ _ Q).
    apply guard_none. cbn. apply Qle_negb_negb. auto.
Qed.

Lemma opt_iff : forall (P : pyv -> Prop) v c,
  (c = None <-> P v) -> (given v c = None <-> optional P v).
Proof. intros P v c H. rewrite given_none. unfold optional. now rewrite H. Qed.

Lemma int_limits_ok : forall a b,
  (given a (c_int_ge 1 a) = None /\ given b (c_int_ge 1 b) = None /\ c_le a b = None)
  <-> int_limits a b.
Proof.
  intros a b. unfold int_limits.
  rewrite (opt_iff _ _ _ (c_int_ge_ok 1 a)), (opt_iff _ _ _ (c_int_ge_ok 1 b)).
  assert (forall v, optional (int_at_least 1) v -> v = VNone \/ exists p, real v p) as K.
  { intros v [->|(z & W & _)]; [now left | right; exists (inject_Z z); now constructor]. }
  split; intros (A & B & L); repeat (split; [assumption|]); apply c_le_ok; auto.
Qed.

Lemma size_limits_ok : forall a b,
  (given a (c_half_open half a) = None /\ given b (c_half_open 1 b) = None /\ c_le a b = None)
  <-> size_limits a b.
Proof.
  intros a b. unfold size_limits.
  rewrite (opt_iff _ _ _ (c_half_open_ok half a)), (opt_iff _ _ _ (c_half_open_ok 1 b)).
  assert (forall h v, optional (real_in (between_open_closed h)) v -> v = VNone \/ exists p, real v p) as K.
  { intros h v [->|(q & R & _)]; [now left | right; now exists q]. }
  split; intros (A & B & L); repeat (split; [assumption|]);
    (apply c_le_ok; [eapply K; eassumption | eapply K; eassumption | assumption]) || idtac.
Qed.

Lemma bins_sizes_ok : forall o, first_err (c_bins_sizes o) = None <-> bins_and_sizes o.
Proof.
  intros o. unfold c_bins_sizes, bins_and_sizes.
  rewrite !first_err_cons, first_err_nil, <- int_limits_ok, <- size_limits_ok. tauto.
Qed.

Lemma event_counts_ok : forall o, first_err (c_event_counts o) = None <-> event_limits o.
Proof.
  intros o. unfold c_event_counts, event_limits.
  rewrite !first_err_cons, first_err_nil, <- !int_limits_ok. tauto.
Qed.

Lemma pvalue_ok : forall o, first_err (c_pvalue o) = None <-> pvalue_options o.
Proof.
  intros o. unfold c_pvalue, pvalue_options.
  rewrite !first_err_cons, first_err_nil, (opt_iff _ _ _ (c_half_open_ok 1 _)), c_in_ok. tauto.
Qed.

Lemma cat_ok : forall o, first_err (c_cat o) = None <-> cat_options o.
Proof.
  intros o. unfold c_cat, cat_options.
  rewrite !first_err_cons, first_err_nil, (opt_iff _ _ _ (c_half_open_ok 1 _)).
  rewrite (opt_iff (fun v => a_number v \/ a_string v) (o "cat_unknown")); [tauto|].
  rewrite guard_none, orb_true_iff, a_number_iff.
  pose proof (c_str_ok (o "cat_unknown")) as S. unfold c_str in S. rewrite guard_none in S.
  tauto.
Qed.

(** ** Containers *)
Lemma arraylike_iff : forall v, is_arraylike v = true <-> a_list v.
Proof.
  intros v. unfold a_list. split.
  - destruct v; try discriminate; eauto.
  - intros (l & [->| ->]); reflexivity.
Qed.
Lemma dict_iff : forall v, is_dict v = true <-> a_dict v.
Proof.
  intros v. unfold a_dict. split.
  - destruct v; try discriminate; eauto.
  - intros (l & ->); reflexivity.
Qed.
Lemma str_iff : forall v, is_str v = true <-> a_string v.
Proof. intros v. rewrite <- c_str_ok. unfold c_str. now rewrite guard_none. Qed.
Lemma bool_iff : forall v, is_bool v = true <-> a_bool v.
Proof. intros v. rewrite <- c_bool_ok. unfold c_bool. now rewrite guard_none. Qed.

Lemma c_arraylike_ok : forall v, c_arraylike v = None <-> special_list v.
Proof. intros. unfold c_arraylike, special_list. now rewrite guard_none, arraylike_iff. Qed.

Lemma c_special_ok : forall v, c_special v = None <-> special_list_or_dict v.
Proof.
  intros v. unfold c_special, special_list_or_dict.
  rewrite !first_err_cons, first_err_nil, guard_none, orb_true_iff, arraylike_iff, dict_iff.
  unfold a_dict. split.
  - intros [[A|[l ->]] [E _]]; [now left|]. right. exists l. split; auto.
    intros ->. discriminate.
  - intros [A|(l & -> & N)].
    + split; [now left|]. split; auto. destruct A as (l & [->| ->]); reflexivity.
    + split; [right; eauto|]. split; auto. destruct l; [contradiction | reflexivity].
Qed.

Lemma c_outlier_ok : forall names o,
  c_outlier names (o "outlier_detector") (o "outlier_params") = None <-> outlier_options names o.
Proof.
  intros names o. unfold c_outlier, outlier_options.
  rewrite given_none, !first_err_cons, first_err_nil, c_in_ok.
  rewrite (opt_iff a_dict (o "outlier_params")); [tauto|].
  now rewrite guard_none, dict_iff.
Qed.

Lemma c_class_weight_ok : forall v, c_class_weight v = None <-> weights_option v.
Proof.
  intros v. unfold weights_option, a_dict. destruct v; cbn;
    try (split; [discriminate | intros [[l' H]|H]; discriminate]).
  - rewrite guard_none, String.eqb_eq. split.
    + intros ->. now right.
    + intros [[l' H]|[= ->]]; [discriminate | reflexivity].
  - split; [eauto | reflexivity].
Qed.

Lemma list_of_items : forall v l, list_of v l -> items v = l.
Proof. intros v l [->| ->]; reflexivity. Qed.

Lemma c_user_splits_ok : forall o,
  c_user_splits (o "user_splits") (o "user_splits_fixed") = None <-> user_split_options o.
Proof.
  intros o. unfold c_user_splits, user_split_options.
  rewrite !first_err_cons, first_err_nil.
  rewrite (opt_iff a_list (o "user_splits")) by now rewrite guard_none, arraylike_iff.
  rewrite given_none.
  set (s := o "user_splits"). set (f := o "user_splits_fixed").
  split.
  - intros (S & F & _). split; [exact S|]. destruct F as [F|F]; [now left|right].
    destruct (is_none s) eqn:N; [discriminate|].
    destruct (is_arraylike f) eqn:A; [|discriminate]. cbn [negb] in F.
    destruct (forallb is_bool (items f)) eqn:B; [|discriminate]. cbn [negb] in F.
    apply guard_none in F. apply Nat.eqb_eq in F.
    destruct S as [S|(ls & S)]; [rewrite S in N; discriminate|].
    apply arraylike_iff in A. destruct A as (lf & A).
    exists ls, lf. rewrite (list_of_items s ls), (list_of_items f lf) in F by assumption.
    rewrite (list_of_items f lf) in B by assumption.
    split; [exact S|]. split; [exact A|]. split; [exact F|].
    intros x H. apply bool_iff. rewrite forallb_forall in B. auto.
  - intros (S & F). split; [exact S|]. split; [|exact I].
    destruct F as [F|(ls & lf & HS & HF & L & B)]; [now left|right].
    replace (is_none s) with false by (destruct HS as [->| ->]; reflexivity).
    replace (is_arraylike f) with true by (destruct HF as [->| ->]; reflexivity).
    cbn [negb]. rewrite (list_of_items _ _ HS), (list_of_items _ _ HF).
    replace (forallb is_bool lf) with true.
    + cbn [negb]. apply guard_none. now apply Nat.eqb_eq.
    + symmetry. apply forallb_forall. intros x H. now apply bool_iff, B.
Qed.

Lemma digits_ok : forall o, c_digits o = None <-> digits_option o.
Proof. intros o. unfold c_digits, digits_option. apply opt_iff, c_int_range_ok. Qed.
Lemma limit_ok : forall o, c_limit o = None <-> not_below 0 (o "time_limit").
Proof. intros o. apply c_not_below_ok. Qed.

Lemma trend_ok : forall v, given v (c_in v trends) = None <-> optional (named all_trends) v.
Proof.
  intros v. apply opt_iff, c_in_perm. intros s. unfold trends, all_trends. cbn. tauto.
Qed.
Lemma dtype_ok : forall v, c_in v ["categorical"; "numerical"] = None <-> named ["numerical"; "categorical"] v.
Proof. intros v. apply c_in_perm. intros s. cbn. tauto. Qed.
