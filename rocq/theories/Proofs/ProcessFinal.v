From Coq Require Import List ZArith Bool Lia Permutation Sorting.
From Verif Require Import Model.Arr Model.Core Model.Process Spec.ProcessSpec Proofs.ArrP Proofs.ProcessP Proofs.ProcessSel.
Import ListNotations.
Open Scope Z_scope.

Lemma index_of_nth names k i : index_of names k = Some i -> nth_error names i = Some k.
Proof.
  revert i. induction names as [|n r IH]; intros i; cbn [index_of]; [discriminate|].
  destruct (Z.eqb_spec n k) as [->|]; [intros E; injection E as <-; reflexivity|].
  destruct (index_of r k) as [j|]; cbn; [|discriminate]. intros E; injection E as <-. now apply IH.
Qed.
Lemma index_of_In names k : In k names -> exists i, index_of names k = Some i.
Proof.
  induction names as [|n r IH]; cbn [In index_of]; [tauto|]. intros H. destruct (Z.eqb_spec n k); [eauto|].
  destruct H; [contradiction|]. destruct (IH H) as (i & ->). cbn. eauto.
Qed.
Lemma nth_true_error (l : list bool) i : nth i l false = true <-> nth_error l i = Some true.
Proof.
  split; intros H.
  - destruct (nth_error l i) as [b|] eqn:E.
    + rewrite (nth_error_nth _ _ false E) in H. now subst b.
    + apply nth_error_None in E. rewrite nth_overflow in H by exact E. discriminate.
  - now apply nth_error_nth.
Qed.
Lemma set_true_nth l i j : nth j (set_true l i) false = true <-> (j < length l)%nat /\ (i = j \/ nth j l false = true).
Proof. unfold set_true. rewrite nth_seq_bool, orb_true_iff, Nat.eqb_eq. reflexivity. Qed.
Lemma fix_vars_spec names fixed s s' : length s = length names -> fix_vars names fixed s = Ok s' ->
  length s' = length names /\
  forall i, nth i s' false = true <-> nth i s false = true \/ exists k, In k fixed /\ index_of names k = Some i.
Proof.
  revert s. induction fixed as [|k r IH]; intros s Hl; cbn [fix_vars].
  - intros E. injection E as <-. split; [exact Hl|]. intros i. split; [tauto|]. intros [H|(k & [] & _)]. exact H.
  - destruct (index_of names k) as [j|] eqn:E; [|discriminate]. intros H.
    assert (Hj : (j < length s)%nat). { rewrite Hl. apply nth_error_Some. rewrite (index_of_nth _ _ _ E). discriminate. }
    apply IH in H; [|unfold set_true; now rewrite map_length, seq_length]. destruct H as [H1 H2]. split; [exact H1|].
    intros i. rewrite H2, set_true_nth. split.
    + intros [[_ [->|Hs]]|(k' & Hk & Ek)]; [right; exists k; split; [now left|exact E]|now left|right; exists k'; split; [now right|exact Ek]].
    + intros [Hs|(k' & [<-|Hk] & Ek)].
      * left. split; [|now right]. destruct (Nat.lt_ge_cases i (length s)); [assumption|]. rewrite nth_overflow in Hs by assumption. discriminate.
      * rewrite E in Ek. injection Ek as <-. left. split; [exact Hj|now left].
      * right. exists k'. split; assumption.
Qed.
Lemma fix_vars_ok names fixed s : (forall k, In k fixed -> In k names) -> exists s', fix_vars names fixed s = Ok s'.
Proof.
  revert s. induction fixed as [|k r IH]; intros s H; cbn [fix_vars]; [eauto|].
  destruct (index_of_In names k (H k (or_introl eq_refl))) as (i & ->). apply IH. intros k' Hk'. apply H. now right.
Qed.
Lemma fix_vars_err names fixed s k : In k fixed -> ~ In k names -> fix_vars names fixed s = Err ValueError.
Proof.
  revert s. induction fixed as [|k' r IH]; intros s H Hn; cbn [fix_vars]; [destruct H|destruct H as [->|H]].
  - destruct (index_of names k) as [i|] eqn:E; [|reflexivity]. exfalso. apply Hn. apply index_of_nth in E. now apply nth_error_In in E.
  - destruct (index_of names k'); [now apply IH|reflexivity].
Qed.
Lemma dset_fresh {V} (d : dict V) k v : ~ In k (map fst d) -> dset d k v = d ++ [(k, v)].
Proof.
  induction d as [|[k' v'] d IH]; cbn [dset map fst In app]; intros H; [reflexivity|].
  destruct (Z.eqb_spec k' k); [tauto|]. rewrite IH; tauto.
Qed.
Lemma update_stats_fresh {V} (stat : V -> var_stats) names fitted dflt d : NoDup names ->
  (forall n, In n names -> ~ In n (map fst d)) ->
  update_stats stat names fitted dflt d
  = d ++ map (fun n => (n, stat (match dget fitted n with Some v => v | None => dflt end))) names.
Proof.
  unfold update_stats. revert d. induction names as [|n r IH]; intros d Hn Hd; cbn [fold_left map]; [now rewrite app_nil_r|].
  inversion Hn; subst. rewrite dset_fresh by (apply Hd; now left). rewrite IH; [now rewrite <- app_assoc|assumption|].
  intros m Hm. rewrite map_app, in_app_iff. cbn. intros [H|[<-|[]]]; [|contradiction]. apply (Hd m); [now right|exact H].
Qed.

Lemma top_number_at_most t n k : top_ok t -> (k <= top_number t n)%nat -> at_most_top t n k.
Proof.
  destruct t as [m|a b]; cbn [top_ok top_number at_most_top]; intros Ht H; [exact H|].
  assert (Hb : b <> 0%nat) by lia. pose proof (Nat.mul_div_le (n * a + b - 1) b Hb). nia.
Qed.
Lemma top_number_exact t n : top_ok t -> exactly_top t n (top_number t n).
Proof.
  destruct t as [m|a b]; cbn [top_ok top_number exactly_top]; intros Ht; [reflexivity|].
  assert (Hb : b <> 0%nat) by lia. pose proof (Nat.mul_div_le (n * a + b - 1) b Hb).
  pose proof (Nat.mul_succ_div_gt (n * a + b - 1) b Hb). nia.
Qed.

Section Sel.
Variables (V : Type) (argsort : list Z -> list nat) (stat : V -> var_stats) (fitted : dict V) (dflt : V)
  (names fixed : list name) (cs : list (nat * crit)) (sup : list bool).
Hypothesis Ha : argsort_ok argsort.
Hypothesis Hn : NoDup names.
Hypothesis Hf : forall n, In n names -> exists v, dget fitted n = Some v.
Hypothesis Hs : select_support argsort names fixed (Some cs) (update_stats stat names fitted dflt []) = Ok sup.

Let val (n : name) (m : nat) : Z := stat (match dget fitted n with Some v => v | None => dflt end) m.
Lemma val_of n m x : In n names -> value_of stat fitted n m x <-> x = val n m.
Proof.
  intros Hin. unfold value_of, val. destruct (Hf n Hin) as (v & ->). split; [intros (w & E & <-); injection E as <-; reflexivity|].
  intros ->. exists v. split; reflexivity.
Qed.
Let crits := map (fun mc : nat * crit => (map (fun n => val n (fst mc)) names, snd mc)) cs.
Let s0 := support_criteria argsort (length names) crits.
Lemma sel_eq : fix_vars names fixed s0 = Ok sup.
Proof.
  unfold select_support in Hs. rewrite (update_stats_fresh stat names fitted dflt [] Hn) in Hs by (intros; intros []).
  cbn [app] in Hs. rewrite map_length, Nat.eqb_refl in Hs. unfold s0, crits. rewrite <- Hs. f_equal. f_equal.
  apply map_ext. intros [m c]. cbn [fst snd]. rewrite map_map. reflexivity.
Qed.
Lemma crits_vals : vals_of (length names) crits.
Proof. intros vc Hvc. apply in_map_iff in Hvc. destruct Hvc as (mc & <- & _). cbn. apply map_length. Qed.
Definition s0_spec := support_spec argsort (length names) crits (repeat true (length names)) Ha crits_vals (repeat_length true (length names)).
Lemma nth_val i n m : nth_error names i = Some n -> nth i (map (fun n => val n m) names) 0 = val n m.
Proof. intros E. apply nth_error_nth. now rewrite nth_error_map, E. Qed.
Lemma unique_index i k n : nth_error names i = Some n -> index_of names n = Some k -> k = i.
Proof.
  intros E H. apply index_of_nth in H. apply (proj1 (NoDup_nth_error names) Hn).
  - apply nth_error_Some. congruence.
  - congruence.
Qed.
Lemma sup_iff i n : nth_error names i = Some n -> nth_error sup i = Some true <-> nth i s0 false = true \/ In n fixed.
Proof.
  intros E. destruct s0_spec as (L & _). fold (support_criteria argsort (length names) crits) in L. fold s0 in L.
  destruct (fix_vars_spec names fixed s0 sup L sel_eq) as (L' & H). rewrite <- nth_true_error, H. split.
  - intros [Hi|(k & Hk & Ek)]; [now left|]. right. assert (k = n); [|now subst k]. apply index_of_nth in Ek. congruence.
  - intros [Hi|Hk]; [now left|]. right. exists n. split; [exact Hk|].
    destruct (index_of_In names n) as (j & Ej); [now apply nth_error_In in E|]. rewrite Ej. f_equal. now apply (unique_index i j n).
Qed.
Lemma sel_bounds n : selected names sup n -> In n fixed \/
  forall m c, In (m, c) cs -> exists x, value_of stat fitted n m x /\ meets c x.
Proof.
  intros (i & E & Ei). apply (sup_iff i n E) in Ei. destruct Ei as [Hi|]; [right|now left].
  destruct s0_spec as (_ & H & _). destruct (H i Hi) as [_ Hm]. intros m c Hmc. exists (val n m). split.
  - apply val_of; [now apply nth_error_In in E|reflexivity].
  - specialize (Hm (map (fun n => val n m) names, c)). cbn [fst snd] in Hm. rewrite (nth_val i n m E) in Hm. apply Hm.
    unfold crits. apply in_map_iff. exists (m, c). split; [reflexivity|exact Hmc].
Qed.
Lemma sel_fixed n : In n fixed -> selected names sup n.
Proof.
  intros H. assert (Hi : In n names).
  { destruct (in_dec Z.eq_dec n names); [assumption|]. exfalso. pose proof sel_eq as E. rewrite (fix_vars_err _ _ _ n) in E by assumption. discriminate. }
  apply In_nth_error in Hi. destruct Hi as (i & E). exists i. split; [exact E|]. apply (sup_iff i n E). now right.
Qed.
Lemma names_where l : NoDup l -> (forall n, In n l -> selected names sup n /\ ~ In n fixed) ->
  (length l <= length (where_true s0))%nat.
Proof.
  intros Hl H. rewrite <- (map_length (fun n => match index_of names n with Some i => i | None => 0%nat end) l).
  assert (Hidx : forall n, In n l -> exists i, index_of names n = Some i /\ nth i s0 false = true).
  { intros n Hin. destruct (H n Hin) as [(i & E & Ei) Hnf]. apply (sup_iff i n E) in Ei. destruct Ei as [Ei|]; [|contradiction].
    destruct (index_of_In names n) as (j & Ej); [now apply nth_error_In in E|]. exists j. split; [exact Ej|].
    now rewrite (unique_index i j n E Ej). }
  apply NoDup_incl_length.
  - clear H. induction Hl as [|n l Hni Hl IH]; [constructor|]. cbn [map]. constructor.
    + intros C. apply in_map_iff in C. destruct C as (m & Em & Hm).
      destruct (Hidx n (or_introl eq_refl)) as (i & Ei & _). destruct (Hidx m (or_intror Hm)) as (j & Ej & _).
      rewrite Ei, Ej in Em. subst j. apply index_of_nth in Ei. apply index_of_nth in Ej. assert (m = n) by congruence. now subst m.
    + apply IH. intros m Hm. apply Hidx. now right.
  - intros x Hx. apply in_map_iff in Hx. destruct Hx as (n & <- & Hin). destruct (Hidx n Hin) as (i & -> & Hi). now apply where_true_In.
Qed.
Lemma sel_top m c h t l : In (m, c) cs -> ranked c h t -> top_ok t -> NoDup l ->
  (forall n, In n l -> selected names sup n /\ ~ In n fixed) -> at_most_top t (length names) (length l).
Proof.
  intros Hmc Hr Ht Hl H. apply top_number_at_most; [exact Ht|]. eapply Nat.le_trans; [now apply names_where|].
  destruct s0_spec as (_ & _ & H3 & _). apply (H3 (map (fun n => val n m) names, c) h t); [|exact Hr].
  unfold crits. apply in_map_iff. exists (m, c). split; [reflexivity|exact Hmc].
Qed.
Lemma sel_best u : In u names -> ~ selected names sup u ->
  (forall m c, In (m, c) cs -> exists x, value_of stat fitted u m x /\ meets c x) ->
  exists m c h t, In (m, c) cs /\ ranked c h t /\
    forall v x y, selected names sup v -> ~ In v fixed -> value_of stat fitted v m x -> value_of stat fitted u m y ->
      at_least_as_good h x y.
Proof.
  intros Hu Hns Hm. apply In_nth_error in Hu. destruct Hu as (i & E).
  assert (Hi : nth i s0 false = false).
  { destruct (nth i s0 false) eqn:Ei; [|reflexivity]. exfalso. apply Hns. exists i. split; [exact E|]. apply (sup_iff i u E). now left. }
  destruct s0_spec as (_ & _ & _ & H4).
  assert (Hi0 : nth i (repeat true (length names)) false = true).
  { apply nth_true_error. rewrite nth_error_repeat; [reflexivity|]. apply nth_error_Some. congruence. }
  destruct (H4 i Hi0 Hi) as (vc & h & t & Hvc & Hr & Hg).
  { intros vc Hvc. apply in_map_iff in Hvc. destruct Hvc as ([m c] & <- & Hmc). cbn [fst snd]. rewrite (nth_val i u m E).
    destruct (Hm m c Hmc) as (x & Hx & Hmx). apply val_of in Hx; [|now apply nth_error_In in E]. now subst x. }
  apply in_map_iff in Hvc. destruct Hvc as ([m c] & <- & Hmc). cbn [fst snd] in *. exists m, c, h, t.
  split; [exact Hmc|split; [exact Hr|]]. intros v x y (j & Ev & Ej) Hnf Hx Hy.
  apply val_of in Hx; [|now apply nth_error_In in Ev]. apply val_of in Hy; [|now apply nth_error_In in E]. subst x y.
  apply (sup_iff j v Ev) in Ej. destruct Ej as [Ej|]; [|contradiction].
  specialize (Hg j Ej). now rewrite (nth_val j v m Ev), (nth_val i u m E) in Hg.
Qed.
End Sel.

(** one metric, no fixed variables: exactly as many as asked for *)
Lemma select_names names s : NoDup names -> length s = length names ->
  forall l, NoDup l -> (forall n, In n l <-> selected names s n) -> length l = length (where_true s).
Proof.
  intros Hn Hl l Hdl H. rewrite <- (map_length (fun i => nth i names 0) (where_true s)).
  assert (Hb : forall i, In i (where_true s) -> (i < length names)%nat).
  { intros i Hi. apply where_true_In in Hi. rewrite <- Hl. destruct (Nat.lt_ge_cases i (length s)); [assumption|].
    rewrite nth_overflow in Hi by assumption. discriminate. }
  assert (Hnd : NoDup (map (fun i => nth i names 0) (where_true s))).
  { pose proof (where_true_NoDup s) as W. revert Hb W. generalize (where_true s). intros w. induction w as [|i w IH]; intros Hb W; [constructor|].
    inversion W; subst. cbn [map]. constructor; [|apply IH; [intros; apply Hb; now right|assumption]].
    intros C. apply in_map_iff in C. destruct C as (j & Ej & Hj). assert (j = i); [|subst; contradiction].
    apply (proj1 (NoDup_nth names 0) Hn); [apply Hb; now right|apply Hb; now left|exact Ej]. }
  apply Nat.le_antisymm; apply NoDup_incl_length; try assumption; intros n Hin.
  - apply H in Hin. destruct Hin as (i & E & Ei). apply in_map_iff. exists i. split; [now apply nth_error_nth|].
    apply where_true_In. now apply nth_true_error.
  - apply in_map_iff in Hin. destruct Hin as (i & <- & Hi). apply H. exists i. split.
    + apply nth_error_nth'. now apply Hb.
    + apply nth_true_error. now apply where_true_In.
Qed.
Theorem sel_exact {V} argsort (stat : V -> var_stats) fitted dflt names m c h t sup l l' :
  argsort_ok argsort -> NoDup names -> (forall n, In n names -> exists v, dget fitted n = Some v) ->
  ranked c h t -> top_ok t ->
  select_support argsort names [] (Some [(m, c)]) (update_stats stat names fitted dflt []) = Ok sup ->
  NoDup l -> (forall n, In n l <-> selected names sup n) ->
  NoDup l' -> (forall n, In n l' <-> In n names /\ exists x, value_of stat fitted n m x /\ meets c x) ->
  length l = length l' \/ exactly_top t (length l') (length l).
Proof.
  intros Ha Hn Hf [R1 R2] Ht Hs Hl Hsel Hl' Hval.
  pose proof (sel_eq V argsort stat fitted dflt names [] [(m, c)] sup Hn Hs) as E. cbn [fix_vars] in E.
  injection E as E. unfold support_criteria in E. cbn [map fold_left fst snd] in E.
  set (vals := map (fun n => stat (match dget fitted n with Some v => v | None => dflt end) m) names) in *.
  assert (Lv : length vals = length names) by apply map_length.
  destruct (crit_step_spec argsort vals c (repeat true (length names)) Ha ltac:(rewrite repeat_length; lia)) as (S1 & S2 & S3).
  rewrite E in *. rewrite R1, R2 in S3. destruct S3 as [S3 _]. rewrite repeat_length in S1.
  rewrite (select_names names sup Hn S1 l Hl Hsel).
  assert (Hw : length l' = length (where_true (valid vals c (repeat true (length names))))).
  { apply (select_names names); [exact Hn|rewrite valid_length; rewrite repeat_length; lia|exact Hl'|].
    intros n. rewrite Hval. unfold selected. split.
    - intros (Hin & x & Hx & Hm). destruct (In_nth_error _ _ Hin) as (i & Ei). exists i. split; [exact Ei|].
      apply nth_true_error. apply valid_nth; [rewrite repeat_length; lia|]. split.
      + apply nth_true_error. apply nth_error_repeat. apply nth_error_Some. congruence.
      + unfold vals. erewrite nth_error_nth; [|rewrite nth_error_map, Ei; reflexivity].
        apply (val_of V stat fitted dflt names Hf n m x Hin) in Hx. now subst x.
    - intros (i & Ei & Hv). apply nth_true_error in Hv. apply valid_nth in Hv; [|rewrite repeat_length; lia]. destruct Hv as [_ Hm].
      assert (Hin : In n names) by now apply nth_error_In in Ei. split; [exact Hin|].
      exists (stat (match dget fitted n with Some v => v | None => dflt end) m). split.
      + apply (val_of V stat fitted dflt names Hf n m _ Hin). reflexivity.
      + unfold vals in Hm. erewrite nth_error_nth in Hm; [exact Hm|]. now rewrite nth_error_map, Ei. }
  rewrite <- Hw in S3. rewrite S3. destruct (Nat.min_spec (length l') (top_number t (length l'))) as [[_ ->]|[_ ->]]; [now left|].
  right. now apply top_number_exact.
Qed.
