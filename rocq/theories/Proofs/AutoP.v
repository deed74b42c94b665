(** Proofs about Model/AutoMono.v. *)
From Coq Require Import List ZArith QArith Qabs Bool Lia Lqa.
From Verif Require Import Model.Arr Model.CP Model.AutoMono Spec.AutoSpec.
Import ListNotations.
Open Scope Q_scope.

Lemma Qltb_lt a b : Qltb a b = true <-> a < b.
Proof.
  unfold Qltb. rewrite negb_true_iff. destruct (Qle_bool b a) eqn:E.
  - apply Qle_bool_iff in E. split; [discriminate|lra].
  - split; [intros _|reflexivity]. apply Qnot_le_lt. intros H. apply Qle_bool_iff in H. congruence.
Qed.
Lemma Qltb_ge a b : Qltb a b = false <-> b <= a.
Proof.
  destruct (Qltb a b) eqn:E.
  - apply Qltb_lt in E. split; [discriminate|lra].
  - split; [intros _|reflexivity]. apply Qnot_lt_le. intros H. apply Qltb_lt in H. congruence.
Qed.

Section Arg.
  Variable better : Q -> Q -> bool.
  Definition L (a b : Q) : Prop := better a b = false.
  Hypothesis Ltrans : forall a b c, L a b -> L b c -> L a c.
  Hypothesis Lasym : forall a b, better a b = true -> L b a.
  Definition arg (l : list Q) : nat := match l with [] => 0 | a :: r => argbest better r 1 a 0 end.

  Lemma argbest_spec l : forall pre best pos, nth_error (pre ++ l) pos = Some best -> (pos < length pre)%nat ->
    (forall i a, nth_error pre i = Some a -> L a best) ->
    (forall i a, (i < pos)%nat -> nth_error pre i = Some a -> better best a = true) ->
    let p := argbest better l (length pre) best pos in
    (p < length (pre ++ l))%nat /\ exists b, nth_error (pre ++ l) p = Some b /\
      (forall i a, nth_error (pre ++ l) i = Some a -> L a b) /\
      (forall i a, (i < p)%nat -> nth_error (pre ++ l) i = Some a -> better b a = true).
  Proof.
    induction l as [|c l IH]; intros pre best pos Hb Hp HL HS; cbn [argbest].
    - cbv zeta. rewrite !app_nil_r in *. split; [exact Hp|]. exists best. auto.
    - assert (E : pre ++ c :: l = (pre ++ [c]) ++ l) by (now rewrite <- app_assoc).
      assert (Len : length (pre ++ [c]) = S (length pre)) by (rewrite app_length; cbn; lia).
      assert (Hpre : nth_error (pre ++ [c]) pos = Some best).
      { rewrite nth_error_app1 in Hb |- * by exact Hp. exact Hb. }
      destruct (better c best) eqn:B.
      + rewrite E, <- Len. apply IH.
        * rewrite nth_error_app1 by lia. rewrite nth_error_app2 by lia. now rewrite Nat.sub_diag.
        * lia.
        * intros i a Ha. destruct (Nat.lt_ge_cases i (length pre)) as [Hi|Hi].
          -- rewrite nth_error_app1 in Ha by exact Hi. apply (Ltrans _ best); [eauto|]. now apply Lasym.
          -- rewrite nth_error_app2 in Ha by exact Hi. destruct (i - length pre)%nat as [|q]; cbn in Ha.
             ++ injection Ha as <-. unfold L. destruct (better c c) eqn:CC; [|reflexivity]. pose proof (Lasym _ _ CC) as KK; unfold L in KK; congruence.
             ++ destruct q; discriminate.
        * intros i a Hi Ha. rewrite nth_error_app1 in Ha by exact Hi.
          destruct (better c a) eqn:CA; [reflexivity|]. assert (K : L c best).
          { apply (Ltrans _ a); [exact CA|]. eauto. }
          unfold L in K. congruence.
      + rewrite E, <- Len. apply IH.
        * rewrite nth_error_app1 by lia. exact Hpre.
        * lia.
        * intros i a Ha. destruct (Nat.lt_ge_cases i (length pre)) as [Hi|Hi].
          -- rewrite nth_error_app1 in Ha by exact Hi. eauto.
          -- rewrite nth_error_app2 in Ha by exact Hi. destruct (i - length pre)%nat as [|q]; cbn in Ha.
             ++ injection Ha as <-. exact B.
             ++ destruct q; discriminate.
        * intros i a Hi Ha. rewrite nth_error_app1 in Ha by lia. eauto.
  Qed.
  Lemma arg_spec l : l <> [] -> (arg l < length l)%nat /\ exists b, nth_error l (arg l) = Some b /\
      (forall i a, nth_error l i = Some a -> L a b) /\
      (forall i a, (i < arg l)%nat -> nth_error l i = Some a -> better b a = true).
  Proof.
    destruct l as [|a l]; [congruence|]. intros _. unfold arg. apply (argbest_spec l [a] a 0); cbn; auto.
    - intros [|[|i]] b H; cbn in H; try discriminate. injection H as <-.
      unfold L. destruct (better a a) eqn:E; [|reflexivity]. pose proof (Lasym _ _ E) as KK; unfold L in KK; congruence.
    - intros; lia.
  Qed.

  Lemma steps_chain (R : Q -> Q -> Prop) (Rt : forall a b c, R a b -> R b c -> R a c) x i : forall k a b, steps R x i (i + S k) ->
    nth_error x i = Some a -> nth_error x (i + S k) = Some b -> R a b.
  Proof.
    induction k as [|k IH]; intros a b Hs Ha Hb.
    - replace (i + 1)%nat with (S i) in * by lia. apply (Hs i); auto; lia.
    - destruct (nth_error x (i + S k)) as [c|] eqn:E.
      + apply (Rt a c b).
        * apply IH; auto. intros k' a' b' ? ? ? ?. apply (Hs k' a' b'); auto; lia.
        * apply (Hs (i + S k)%nat); auto; try lia. replace (S (i + S k)) with (i + S (S k))%nat by lia. exact Hb.
      + apply nth_error_None in E. assert (nth_error x (i + S (S k)) <> None) by congruence. apply nth_error_Some in H. lia.
  Qed.
  Definition uni (x : list Q) (t : nat) : Prop := steps L x 0 t /\ steps (fun a b => L b a) x t (length x).
  Lemma uni_arg x t : (t < length x)%nat -> uni x t -> uni x (arg x).
  Proof.
    intros Ht [U D]. destruct (arg_spec x) as (Hp & b & Hb & HL & HS). { destruct x; [cbn in Ht; lia|discriminate]. }
    destruct (nth_error x t) as [m|] eqn:Em. 2:{ apply nth_error_None in Em. lia. }
    assert (Hle : (arg x <= t)%nat).
    { destruct (Nat.le_gt_cases (arg x) t) as [|Hgt]; [assumption|exfalso].
      assert (K : L b m).
      { replace (arg x) with (t + S (arg x - t - 1))%nat in Hb by lia.
        apply (steps_chain (fun a b => L b a)) with (x := x) (i := t) (k := (arg x - t - 1)%nat); auto.
        - intros a1 b1 c1 A B. exact (Ltrans _ _ _ B A).
        - intros k' a' b' ? ? ? ?. apply (D k' a' b'); auto; lia. }
      specialize (HS t m Hgt Em). unfold L in K. congruence. }
    split.
    - intros k a c ? ? ? ?. apply (U k); auto; lia.
    - intros k a c Hk1 Hk2 Ha Hc. destruct (Nat.lt_ge_cases k t) as [Hkt|Hkt]; [|apply (D k a c); auto].
      (* between arg and t all values are equivalent to the best one *)
      assert (Lbc : L b a).
      { destruct (Nat.eq_dec k (arg x)) as [->|Hne].
        - rewrite Hb in Ha. injection Ha as ->. eapply HL; eauto.
        - replace k with (arg x + S (k - arg x - 1))%nat in Ha by lia.
          apply (steps_chain L Ltrans) with (x := x) (i := arg x) (k := (k - arg x - 1)%nat); auto.
          intros k' a' b' ? ? ? ?. apply (U k' a' b'); auto; lia. }
      apply (Ltrans _ b); [eapply HL; eauto|exact Lbc].
  Qed.
End Arg.

Definition gtr (x y : Q) := Qltb y x.
Lemma L_max a b : L gtr a b <-> a <= b.
Proof. unfold L, gtr. apply Qltb_ge. Qed.
Lemma L_min a b : L Qltb a b <-> b <= a.
Proof. unfold L. apply Qltb_ge. Qed.
Lemma argmax_arg x : argmax x = arg gtr x. Proof. reflexivity. Qed.
Lemma argmin_arg x : argmin x = arg Qltb x. Proof. reflexivity. Qed.
Lemma argmax_spec x : x <> [] -> (argmax x < length x)%nat /\ exists b, nth_error x (argmax x) = Some b /\
   (forall i a, nth_error x i = Some a -> a <= b) /\ (forall i a, (i < argmax x)%nat -> nth_error x i = Some a -> a < b).
Proof.
  intros H. rewrite argmax_arg. destruct (arg_spec gtr) with (l := x) as (Hp & b & Hb & HL & HS); auto.
  - intros a b c. rewrite !L_max. lra.
  - intros a b. unfold gtr at 1. rewrite Qltb_lt, L_max. lra.
  - split; auto. exists b. split; auto. split; intros.
    + apply L_max. eauto.
    + specialize (HS i a H0 H1). now apply Qltb_lt in HS.
Qed.
Lemma argmin_spec x : x <> [] -> (argmin x < length x)%nat /\ exists b, nth_error x (argmin x) = Some b /\
   (forall i a, nth_error x i = Some a -> b <= a) /\ (forall i a, (i < argmin x)%nat -> nth_error x i = Some a -> b < a).
Proof.
  intros H. rewrite argmin_arg. destruct (arg_spec Qltb) with (l := x) as (Hp & b & Hb & HL & HS); auto.
  - intros a b c. rewrite !L_min. lra.
  - intros a b. rewrite Qltb_lt, L_min. lra.
  - split; auto. exists b. split; auto. split; intros.
    + apply L_min. eauto.
    + specialize (HS i a H0 H1). now apply Qltb_lt in HS.
Qed.

Lemma diffs_nth x : forall k a b, nth_error x k = Some a -> nth_error x (S k) = Some b -> nth_error (diffs x) k = Some (b - a).
Proof.
  unfold diffs. induction x as [|c x IH]; intros k a b Ha Hb; [destruct k; discriminate|].
  destruct x as [|e x]; [destruct k as [|[|k]]; discriminate|]. destruct k as [|k].
  - cbn in Ha, Hb. injection Ha as ->. injection Hb as ->. reflexivity.
  - cbn [tl map2 nth_error]. apply (IH k a b); auto.
Qed.
Lemma diffs_len x : length (diffs x) = (length x - 1)%nat.
Proof.
  unfold diffs. induction x as [|a x IH]; [reflexivity|]. destruct x as [|b x]; [reflexivity|].
  cbn [tl map2 length] in *. lia.
Qed.
Lemma diffs_forall (P : Q -> Prop) (R : Q -> Q -> Prop) x : (forall a b, P (b - a) <-> R a b) ->
  (forall q, In q (diffs x) -> P q) <-> steps R x 0 (length x).
Proof.
  intros HP. split.
  - intros H k a b _ Hk Ha Hb. apply HP. apply H. eapply nth_error_In. eapply diffs_nth; eauto.
  - intros H q Hq. apply In_nth_error in Hq. destruct Hq as [k Hq].
    assert (Hk : (k < length (diffs x))%nat) by (apply nth_error_Some; congruence). rewrite diffs_len in Hk.
    destruct (nth_error x k) as [a|] eqn:Ea; [|apply nth_error_None in Ea; lia].
    destruct (nth_error x (S k)) as [b|] eqn:Eb; [|apply nth_error_None in Eb; lia].
    rewrite (diffs_nth _ _ _ _ Ea Eb) in Hq. injection Hq as <-. apply HP. apply (H k a b); auto; lia.
Qed.
Lemma all_nonneg_iff x : all_nonneg (diffs x) = true <-> rising x.
Proof.
  unfold all_nonneg, rising. rewrite forallb_forall.
  rewrite (diffs_forall (fun q => Qle_bool 0 q = true) Qle); [reflexivity|]. intros a b. rewrite Qle_bool_iff. split; lra.
Qed.
Lemma all_nonpos_iff x : all_nonpos (diffs x) = true <-> falling x.
Proof.
  unfold all_nonpos, falling. rewrite forallb_forall.
  rewrite (diffs_forall (fun q => Qle_bool q 0 = true) (fun a b => b <= a)); [reflexivity|]. intros a b. rewrite Qle_bool_iff. split; lra.
Qed.
Lemma nth_error_firstn_lt {A} (x : list A) : forall n k, (k < n)%nat -> nth_error (firstn n x) k = nth_error x k.
Proof. induction x as [|a x IH]; intros [|n] [|k] H; cbn; auto; try lia. apply IH. lia. Qed.
Lemma nth_error_skipn {A} (x : list A) : forall n k, nth_error (skipn n x) k = nth_error x (n + k).
Proof. induction x as [|a x IH]; intros [|n] k; cbn; auto. destruct k; reflexivity. Qed.
Lemma steps_firstn R x t : (t < length x)%nat -> steps R (firstn (S t) x) 0 (length (firstn (S t) x)) <-> steps R x 0 t.
Proof.
  intros Ht. rewrite firstn_length_le by lia. split; intros H k a b ? Hk Ha Hb.
  - apply (H k); auto; try lia; rewrite nth_error_firstn_lt; auto; lia.
  - destruct (Nat.eq_dec k t) as [->|].
    + assert (E : nth_error (firstn (S t) x) (S t) <> None) by congruence. apply nth_error_Some in E. rewrite firstn_length in E. lia.
    + rewrite nth_error_firstn_lt in Ha, Hb by lia. apply (H k); auto; lia.
Qed.
Lemma steps_skipn R x t : (t <= length x)%nat -> steps R (skipn t x) 0 (length (skipn t x)) <-> steps R x t (length x).
Proof.
  intros Ht. rewrite skipn_length. split; intros H k a b ? Hk Ha Hb.
  - apply (H (k - t)%nat); try lia; rewrite nth_error_skipn.
    + now replace (t + (k - t))%nat with k by lia. + now replace (t + S (k - t))%nat with (S k) by lia.
  - rewrite nth_error_skipn in Ha, Hb. apply (H (t + k)%nat); auto; try lia. now replace (S (t + k)) with (t + S k)%nat by lia.
Qed.
Lemma steps_impl (R S : Q -> Q -> Prop) x i j : (forall a b, R a b -> S a b) -> steps R x i j -> steps S x i j.
Proof. intros H K k a b ? ? ? ?. apply H. eapply K; eauto. Qed.

Lemma is_peak_iff x : x <> [] -> is_peak x = true <-> peaked x.
Proof.
  intros Hx. destruct (argmax_spec x Hx) as [Hp _]. unfold is_peak. rewrite andb_true_iff, all_nonneg_iff, all_nonpos_iff.
  unfold rising, falling. rewrite steps_firstn by exact Hp. rewrite steps_skipn by lia. split.
  - intros [H1 H2]. exists (argmax x). auto.
  - intros (t & Ht & U & D). destruct (uni_arg gtr) with (x := x) (t := t) as [U' D']; auto.
    + intros a b c. rewrite !L_max. lra.
    + intros a b. unfold gtr at 1. rewrite Qltb_lt, L_max. lra.
    + split; [eapply steps_impl; [|exact U]|eapply steps_impl; [|exact D]]; intros a b; now rewrite L_max.
    + rewrite argmax_arg. split; [eapply steps_impl; [|exact U']|eapply steps_impl; [|exact D']]; intros a b; cbv beta; now rewrite L_max.
Qed.
Lemma is_valley_iff x : x <> [] -> is_valley x = true <-> valleyed x.
Proof.
  intros Hx. destruct (argmin_spec x Hx) as [Hp _]. unfold is_valley. rewrite andb_true_iff, all_nonneg_iff, all_nonpos_iff.
  unfold rising, falling. rewrite steps_firstn by exact Hp. rewrite steps_skipn by lia. split.
  - intros [H1 H2]. exists (argmin x). auto.
  - intros (t & Ht & U & D). destruct (uni_arg Qltb) with (x := x) (t := t) as [U' D']; auto.
    + intros a b c. rewrite !L_min. lra.
    + intros a b. rewrite Qltb_lt, L_min. lra.
    + split; [eapply steps_impl; [|exact U]|eapply steps_impl; [|exact D]]; intros a b; now rewrite L_min.
    + rewrite argmin_arg. split; [eapply steps_impl; [|exact U']|eapply steps_impl; [|exact D']]; intros a b; cbv beta; now rewrite L_min.
Qed.
Lemma is_convex_iff x : is_convex x = true <-> convex x.
Proof.
  unfold convex. induction x as [|a x IH]; [split; auto; intros _ [|i]; discriminate|].
  destruct x as [|b x]; [split; auto; intros _ [|[|i]]; discriminate|].
  destruct x as [|c x]; [split; auto; intros _ [|[|[|i]]]; discriminate|].
  assert (EQ : is_convex (a :: b :: c :: x) = (Qle_bool 0 (c - 2 * b + a) && is_convex (b :: c :: x))%bool) by reflexivity. rewrite EQ. remember (b :: c :: x) as r. rewrite andb_true_iff, IH, Qle_bool_iff. split.
  - intros [H1 H2] [|i] p q w Hp Hq Hw.
    + subst r. cbn in Hp, Hq, Hw. injection Hp as <-. injection Hq as <-. injection Hw as <-. lra.
    + apply (H2 i p q w); auto.
  - intros H. split.
    + specialize (H 0%nat a b c). subst r. cbn in H. specialize (H eq_refl eq_refl eq_refl). lra.
    + intros i p q w Hp Hq Hw. apply (H (S i) p q w); auto.
Qed.
Lemma is_concave_iff x : is_concave x = true <-> concave x.
Proof.
  unfold concave. induction x as [|a x IH]; [split; auto; intros _ [|i]; discriminate|].
  destruct x as [|b x]; [split; auto; intros _ [|[|i]]; discriminate|].
  destruct x as [|c x]; [split; auto; intros _ [|[|[|i]]]; discriminate|].
  assert (EQ : is_concave (a :: b :: c :: x) = (Qle_bool 0 (- c + 2 * b - a) && is_concave (b :: c :: x))%bool) by reflexivity. rewrite EQ. remember (b :: c :: x) as r. rewrite andb_true_iff, IH, Qle_bool_iff. split.
  - intros [H1 H2] [|i] p q w Hp Hq Hw.
    + subst r. cbn in Hp, Hq, Hw. injection Hp as <-. injection Hq as <-. injection Hw as <-. lra.
    + apply (H2 i p q w); auto.
  - intros H. split.
    + specialize (H 0%nat a b c). subst r. cbn in H. specialize (H eq_refl eq_refl eq_refl). lra.
    + intros i p q w Hp Hq Hw. apply (H (S i) p q w); auto.
Qed.

(** no change of sign: all differences have the same sign *)
Lemma no_change_same s : count_true (map2 (fun a b => negb (a =? b)%Z) s (tl s)) = 0%nat ->
  forall a b, In a s -> In b s -> a = b.
Proof.
  assert (K : forall (c : Z) (s0 : list Z), count_true (map2 (fun a b => negb (a =? b)%Z) (c :: s0) s0) = 0%nat -> forall a, In a s0 -> a = c).
  { intros c s0. revert c. induction s0 as [|e s0 IH]; intros c H a Ha; [destruct Ha|].
    cbn [map2 count_true] in H. destruct (c =? e)%Z eqn:E; cbn [negb] in H; [|lia].
    apply Z.eqb_eq in E. destruct Ha as [<-|Ha]; [congruence|]. rewrite E. apply IH; auto. }
  destruct s as [|c s]; intros H a b Ha Hb; [destruct Ha|]. cbn [tl] in H. specialize (K c s H).
  destruct Ha as [<-|Ha], Hb as [<-|Hb]; auto; try (symmetry; auto; fail). rewrite (K a), (K b); auto.
Qed.
Lemma same_no_change s c : (forall a, In a s -> a = c) -> count_true (map2 (fun a b => negb (a =? b)%Z) s (tl s)) = 0%nat.
Proof.
  induction s as [|a s IH]; intros H; [reflexivity|]. cbn [tl]. destruct s as [|b s]; [reflexivity|].
  cbn [map2 count_true]. replace (a =? b)%Z with true by (symmetry; apply Z.eqb_eq; rewrite (H a), (H b); cbn; auto). cbn [negb].
  exact (IH (fun z Hz => H z (or_intror Hz))).
Qed.
Lemma sign_pos q : sign q = 1%Z <-> 0 < q.
Proof.
  unfold sign. destruct (Qltb 0 q) eqn:A; [apply Qltb_lt in A; tauto|]. apply Qltb_ge in A.
  destruct (Qltb q 0); split; try discriminate; lra.
Qed.
Lemma sign_neg q : sign q = (-1)%Z <-> q < 0.
Proof.
  unfold sign. destruct (Qltb 0 q) eqn:A.
  - apply Qltb_lt in A. split; [discriminate|lra].
  - destruct (Qltb q 0) eqn:B; [apply Qltb_lt in B; tauto|]. apply Qltb_ge in B. split; [discriminate|lra].
Qed.
Lemma sign_zero q : sign q = 0%Z <-> q == 0.
Proof.
  unfold sign. destruct (Qltb 0 q) eqn:A.
  - apply Qltb_lt in A. split; [discriminate|lra].
  - apply Qltb_ge in A. destruct (Qltb q 0) eqn:B; [apply Qltb_lt in B; split; [discriminate|lra]|].
    apply Qltb_ge in B. split; auto. intros _. lra.
Qed.
Lemma sign_cases q : sign q = 1%Z \/ sign q = (-1)%Z \/ sign q = 0%Z.
Proof. unfold sign. destruct (Qltb 0 q), (Qltb q 0); auto. Qed.

Lemma npv_zero x : n_peaks_valleys x = 0%nat <-> strictly_rising x \/ strictly_falling x \/ constant x.
Proof.
  unfold n_peaks_valleys. cbv zeta.
  unfold strictly_rising, strictly_falling, constant.
  rewrite <- (diffs_forall (fun q => sign q = 1%Z) Qlt) by (intros; rewrite sign_pos; split; lra).
  rewrite <- (diffs_forall (fun q => sign q = (-1)%Z) (fun a b => b < a)) by (intros; rewrite sign_neg; split; lra).
  rewrite <- (diffs_forall (fun q => sign q = 0%Z) Qeq) by (intros; rewrite sign_zero; split; lra).
  split.
  - intros H. pose proof (no_change_same _ H) as K. destruct (diffs x) as [|q l]; [left; intros q []|].
    assert (K' : forall p, In p (q :: l) -> sign p = sign q).
    { intros p Hp. apply K; apply in_map; [exact Hp|now left]. }
    destruct (sign_cases q) as [E|[E|E]]; rewrite E in K'; auto.
  - intros [H|[H|H]]; [apply (same_no_change _ 1%Z)|apply (same_no_change _ (-1)%Z)|apply (same_no_change _ 0%Z)];
      intros a Ha; apply in_map_iff in Ha; destruct Ha as (q & <- & Hq); auto.
Qed.
