(** Lemmas for BinningProcessSketch (C66). *)
From Coq Require Import List ZArith Bool Arith Lia.
From Verif Require Import Model.Arr Model.Core Model.Process Model.ProcessSketch Spec.ProcessSketchSpec.
Import ListNotations.
Open Scope Z_scope.

Lemma dget_dset {V} (d : dict V) k v n : dget (dset d k v) n = if k =? n then Some v else dget d n.
Proof.
  induction d as [|[k' v'] r IH]; cbn [dset dget]; [reflexivity|].
  destruct (k' =? k) eqn:E; cbn [dget].
  - apply Z.eqb_eq in E. subst k'. destruct (k =? n) eqn:En; reflexivity.
  - destruct (k' =? n) eqn:En; [|exact IH]. destruct (k =? n) eqn:E2; [|reflexivity]. apply Z.eqb_eq in En, E2. subst. rewrite Z.eqb_refl in E. discriminate.
Qed.
Lemma zmem_iff v l : zmem v l = true <-> In v l.
Proof. unfold zmem. rewrite existsb_exists. split; [intros (x & Hx & E); apply Z.eqb_eq in E; now subst|intros H; exists v; split; [exact H|apply Z.eqb_refl]]. Qed.

Section Ops.
Context {D C T : Type} (ops : sk_ops D C T).
Notation osk := (osk D T).

Lemma column_of_cons (v w : name) (c : C) r : column_of v ((w, c) :: r) = if w =? v then Some c else column_of v r.
Proof. unfold column_of. cbn [find fst]. destruct (w =? v); reflexivity. Qed.
Lemma column_of_None (v : name) (cols : list (name * C)) : ~ In v (map fst cols) -> column_of v cols = None.
Proof.
  induction cols as [|[w c] r IH]; intros H; [reflexivity|]. rewrite column_of_cons. destruct (w =? v) eqn:E.
  - apply Z.eqb_eq in E. subst. exfalso. apply H. now left.
  - apply IH. intros H2. apply H. now right.
Qed.

(** what add does to one variable *)
Definition add_one (names : list name) (cols : list (name * C)) (v : name) (k : osk) : res osk :=
  if zmem v names then match column_of v cols with Some c => and_then (k_add ops k c) | None => Ok k end else Ok k.
Lemma add_cols_ok names : forall cols vars vars', NoDup (map fst cols) ->
  add_cols ops names vars cols = (vars', Ok tt) ->
  forall v k, dget vars v = Some k -> exists k', dget vars' v = Some k' /\ add_one names cols v k = Ok k'.
Proof.
  induction cols as [|[w c] r IH]; intros vars vars' ND H v k Hk; cbn [add_cols] in H.
  - injection H as <-. exists k. split; [exact Hk|]. unfold add_one, column_of. cbn. destruct (zmem v names); reflexivity.
  - cbn [map fst] in ND. apply NoDup_cons_iff in ND as [Nw ND]. unfold add_one. rewrite column_of_cons.
    destruct (zmem w names) eqn:Ew.
    + destruct (dget vars w) as [kw|] eqn:Edw; [|discriminate]. destruct (k_add ops kw c) as [kw' [u|e]] eqn:Ea; [|discriminate].
      destruct (w =? v) eqn:E.
      * apply Z.eqb_eq in E. subst w. rewrite Hk in Edw. injection Edw as <-. rewrite Ew, Ea. cbn.
        destruct (IH _ _ ND H v kw') as (k' & H1 & H2); [rewrite dget_dset, Z.eqb_refl; reflexivity|].
        unfold add_one in H2. rewrite Ew, (column_of_None v r Nw) in H2. injection H2 as <-. eauto.
      * apply (IH _ _ ND H v k). rewrite dget_dset, E. exact Hk.
    + destruct (w =? v) eqn:E; [|exact (IH _ _ ND H v k Hk)].
      apply Z.eqb_eq in E. subst w. rewrite Ew. destruct (IH _ _ ND H v k Hk) as (k' & H1 & H2). unfold add_one in H2. rewrite Ew in H2. eauto.
Qed.
Lemma add_cols_total names : forall cols vars, NoDup (map fst cols) ->
  (forall v, In v names -> exists k k', dget vars v = Some k /\ add_one names cols v k = Ok k') ->
  exists vars', add_cols ops names vars cols = (vars', Ok tt).
Proof.
  induction cols as [|[w c] r IH]; intros vars ND H; cbn [add_cols]; [eauto|].
  cbn [map fst] in ND. apply NoDup_cons_iff in ND as [Nw ND]. destruct (zmem w names) eqn:Ew.
  - destruct (H w (proj1 (zmem_iff _ _) Ew)) as (k & k' & Hk & Ha). rewrite Hk. unfold add_one in Ha. rewrite Ew, column_of_cons, Z.eqb_refl in Ha.
    unfold and_then in Ha. destruct (k_add ops k c) as [k2 [u|e]] eqn:Ea; cbn in Ha; [|discriminate]. injection Ha as <-.
    apply IH; [exact ND|]. intros v Hv. rewrite dget_dset. destruct (w =? v) eqn:E.
    + apply Z.eqb_eq in E. subst v. exists k2, k2. split; [reflexivity|]. unfold add_one. rewrite Ew, (column_of_None w r Nw). reflexivity.
    + destruct (H v Hv) as (a & b & Ha & Hb). exists a, b. split; [exact Ha|]. unfold add_one in Hb |- *. rewrite column_of_cons, E in Hb. exact Hb.
  - apply IH; [exact ND|]. intros v Hv. destruct (H v Hv) as (a & b & Ha & Hb). exists a, b. split; [exact Ha|].
    unfold add_one in Hb |- *. rewrite column_of_cons in Hb. destruct (w =? v) eqn:E; [|exact Hb]. apply Z.eqb_eq in E. subst. apply zmem_iff in Hv. congruence.
Qed.

Lemma merge_vars_ok : forall names vars other vars', NoDup names -> merge_vars ops names vars other = (vars', Ok tt) ->
  forall v, (In v names -> exists k k2 k', dget vars v = Some k /\ dget other v = Some k2 /\ dget vars' v = Some k' /\ and_then (k_merge ops k k2) = Ok k') /\
            (~ In v names -> dget vars' v = dget vars v).
Proof.
  induction names as [|w r IH]; intros vars other vars' ND H v; cbn [merge_vars] in H.
  - injection H as <-. split; [intros []|reflexivity].
  - apply NoDup_cons_iff in ND as [Nw ND]. destruct (dget vars w) as [k|] eqn:Ek; [|discriminate]. destruct (dget other w) as [k2|] eqn:E2; [|discriminate].
    destruct (k_merge ops k k2) as [k' [u|e]] eqn:Em; [|discriminate].
    pose proof (IH _ _ _ ND H v) as [I1 I2]. split.
    + intros [<- | Hv].
      * exists k, k2, k'. split; [exact Ek|]. split; [exact E2|]. split; [|unfold and_then; rewrite Em; reflexivity].
        rewrite I2 by exact Nw. rewrite dget_dset, Z.eqb_refl. reflexivity.
      * destruct (I1 Hv) as (a & b & c & A1 & A2 & A3 & A4). exists a, b, c. rewrite dget_dset in A1. destruct (w =? v) eqn:E; [apply Z.eqb_eq in E; subst; contradiction|]. auto.
    + intros Hv. rewrite I2 by (intros H2; apply Hv; now right). rewrite dget_dset. destruct (w =? v) eqn:E; [|reflexivity]. apply Z.eqb_eq in E. subst. exfalso. apply Hv. now left.
Qed.
Lemma merge_vars_total : forall names vars other, NoDup names ->
  (forall v, In v names -> exists k k2 k', dget vars v = Some k /\ dget other v = Some k2 /\ and_then (k_merge ops k k2) = Ok k') ->
  exists vars', merge_vars ops names vars other = (vars', Ok tt).
Proof.
  induction names as [|w r IH]; intros vars other ND H; cbn [merge_vars]; [eauto|]. apply NoDup_cons_iff in ND as [Nw ND].
  destruct (H w (or_introl eq_refl)) as (k & k2 & k' & E1 & E2 & E3). rewrite E1, E2. unfold and_then in E3. destruct (k_merge ops k k2) as [k3 [u|e]]; cbn in E3; [|discriminate].
  apply IH; [exact ND|]. intros v Hv. destruct (H v (or_intror Hv)) as (a & b & c & A1 & A2 & A3). exists a, b, c. split; [|auto].
  rewrite dget_dset. destruct (w =? v) eqn:E; [apply Z.eqb_eq in E; subst; contradiction|exact A1].
Qed.
Lemma solve_vars_ok : forall names vars vars', NoDup names -> solve_vars ops names vars = (vars', Ok tt) ->
  forall v, (In v names -> exists k k', dget vars v = Some k /\ dget vars' v = Some k' /\ and_then (k_solve ops k) = Ok k') /\
            (~ In v names -> dget vars' v = dget vars v).
Proof.
  induction names as [|w r IH]; intros vars vars' ND H v; cbn [solve_vars] in H.
  - injection H as <-. split; [intros []|reflexivity].
  - apply NoDup_cons_iff in ND as [Nw ND]. destruct (dget vars w) as [k|] eqn:Ek; [|discriminate].
    destruct (k_solve ops k) as [k' [u|e]] eqn:Em; [|discriminate].
    pose proof (IH _ _ ND H v) as [I1 I2]. split.
    + intros [<- | Hv].
      * exists k, k'. split; [exact Ek|]. split; [|unfold and_then; rewrite Em; reflexivity].
        rewrite I2 by exact Nw. rewrite dget_dset, Z.eqb_refl. reflexivity.
      * destruct (I1 Hv) as (a & c & A1 & A3 & A4). exists a, c. rewrite dget_dset in A1. destruct (w =? v) eqn:E; [apply Z.eqb_eq in E; subst; contradiction|]. auto.
    + intros Hv. rewrite I2 by (intros H2; apply Hv; now right). rewrite dget_dset. destruct (w =? v) eqn:E; [|reflexivity]. apply Z.eqb_eq in E. subst. exfalso. apply Hv. now left.
Qed.
Lemma solve_vars_total : forall names vars, NoDup names ->
  (forall v, In v names -> exists k k', dget vars v = Some k /\ and_then (k_solve ops k) = Ok k') ->
  exists vars', solve_vars ops names vars = (vars', Ok tt).
Proof.
  induction names as [|w r IH]; intros vars ND H; cbn [solve_vars]; [eauto|]. apply NoDup_cons_iff in ND as [Nw ND].
  destruct (H w (or_introl eq_refl)) as (k & k' & E1 & E3). rewrite E1. unfold and_then in E3. destruct (k_solve ops k) as [k3 [u|e]]; cbn in E3; [|discriminate].
  apply IH; [exact ND|]. intros v Hv. destruct (H v (or_intror Hv)) as (a & c & A1 & A3). exists a, c. split; [|auto].
  rewrite dget_dset. destruct (w =? v) eqn:E; [apply Z.eqb_eq in E; subst; contradiction|exact A1].
Qed.

Lemma start_vars o : forall names (d : dict osk) v,
  dget (fold_left (fun d v => dset d v (k_init (opts_for o v))) names d) v = if zmem v names then Some (k_init (opts_for o v)) else dget d v.
Proof.
  induction names as [|w r IH]; intros d v; [reflexivity|]. cbn [fold_left]. rewrite IH, dget_dset. cbn [zmem existsb]. unfold zmem. rewrite (Z.eqb_sym v w).
  destruct (existsb (Z.eqb v) r); [rewrite orb_true_r; reflexivity|]. rewrite orb_false_r. destruct (w =? v) eqn:E; [apply Z.eqb_eq in E; now subst|reflexivity].
Qed.
Lemma mergeable_refl o : mergeable o o = Ok true.
Proof.
  unfold mergeable. destruct (others_dec o o) as [|n]; [|exfalso; apply n; destruct o; reflexivity]. unfold names_eq.
  destruct (nl_array (bo_names o)); cbn; [rewrite Nat.eqb_refl; reflexivity|]. destruct (list_eq_dec Z.eq_dec (nl (bo_names o)) (nl (bo_names o))); [reflexivity|congruence].
Qed.

(** The process is, variable by variable, an OptimalBinningSketch. *)
Variable o : bp_opts.
Notation names := (nl (bo_names o)).
Hypothesis ND : NoDup names.
Definition inv (h : hist C) (st : bps D T) : Prop :=
  (forall v, In v names -> exists k, live ops (opts_for o v) (seen_by v h) = Ok k /\ (bs_started st = true -> dget (bs_vars st) v = Some k) /\
      (bs_started st = false -> k = k_init (opts_for o v)) /\ (k_nadd k = 0 \/ 0 < bs_nadd st) /\ 0 <= k_nadd k) /\
  (bs_started st = false -> bs_vars st = []) /\ bs_nsamples st = own_rows h /\ 0 <= bs_nadd st.

Lemma k_add_nadd (k k' : osk) c : and_then (k_add ops k c) = Ok k' -> k_nadd k' = k_nadd k + 1.
Proof. unfold and_then, k_add. destruct (d_add ops _ c); cbn; [|discriminate]. intros H. injection H as <-. reflexivity. Qed.
Lemma k_merge_nadd (k k2 k' : osk) : and_then (k_merge ops k k2) = Ok k' -> k_nadd k' = k_nadd k.
Proof. unfold and_then, k_merge. destruct (k_data k), (k_data k2); cbn; try discriminate. destruct (d_merge ops _ _); cbn; [|discriminate]. intros H. injection H as <-. reflexivity. Qed.
Lemma k_solve_nadd (k k' : osk) : and_then (k_solve ops k) = Ok k' -> k_nadd k' = k_nadd k /\ k_nadd k <> 0.
Proof.
  unfold and_then, k_solve. destruct (k_nadd k =? 0) eqn:E; cbn; [discriminate|]. apply Z.eqb_neq in E. destruct (k_data k); cbn; [|discriminate].
  destruct (d_solve ops _ _); cbn; [|discriminate]. intros H. injection H as <-. auto.
Qed.
Lemma add_one_names cols v k : In v names -> add_one names cols v k = match column_of v cols with Some c => and_then (k_add ops k c) | None => Ok k end.
Proof. intros Hv. unfold add_one. apply zmem_iff in Hv. now rewrite Hv. Qed.

Lemma started_vars h st v k : inv h st -> In v names -> live ops (opts_for o v) (seen_by v h) = Ok k ->
  dget (bs_vars (bp_start o st)) v = Some k.
Proof.
  intros (I1 & I2 & _) Hv Hk. destruct (I1 v Hv) as (k2 & E & A & B & _). rewrite Hk in E. injection E as <-. unfold bp_start.
  destruct (bs_started st); [now apply A|]. cbn [bs_vars]. rewrite start_vars. assert (zmem v names = true) as -> by now apply zmem_iff. now rewrite (B eq_refl).
Qed.

Lemma exec_inv : forall h st, frames_ok h -> exec ops o h = Ok st -> inv h st.
Proof.
  induction h as [|h IH cols rows|h IH h2 IH2|h IH]; intros st HF H; cbn [exec] in H.
  - injection H as <-. split; [|split; [reflexivity|split; [reflexivity|cbn; lia]]]. intros v Hv. exists (k_init (opts_for o v)). cbn. split; [reflexivity|].
    split; [discriminate|]. split; [reflexivity|]. split; [now left|lia].
  - destruct HF as [HF NC]. destruct (exec ops o h) as [st0|] eqn:E0; cbn [rbind] in H; [|discriminate]. specialize (IH st0 HF eq_refl).
    unfold and_then, bp_add in H. destruct (add_cols ops names (bs_vars (bp_start o st0)) cols) as [vars [u|e]] eqn:Ea; cbn in H; [|discriminate]. injection H as <-. destruct u.
    split; [|split; [discriminate|]].
    + intros v Hv. pose proof IH as (I1 & I2 & I3). destruct (I1 v Hv) as (k & Hk & _ & _ & Hn & Hn0). pose proof (started_vars _ _ _ _ IH Hv Hk) as Hd.
      destruct (add_cols_ok _ _ _ _ NC Ea v k Hd) as (k' & Hd' & Ho). rewrite add_one_names in Ho by exact Hv.
      exists k'. cbn [seen_by bs_started bs_vars bs_nadd]. split; [|split; [intros _; exact Hd'|split; [discriminate|]]].
      * destruct (column_of v cols); [cbn [live]; rewrite Hk; exact Ho|congruence].
      * assert (0 < bs_nadd (bp_start o st0) + 1) by (unfold bp_start; destruct (bs_started st0); cbn [bs_nadd]; lia).
        split; [now right|]. destruct (column_of v cols); [apply k_add_nadd in Ho; lia|injection Ho as <-; exact Hn0].
    + destruct IH as (_ & _ & I3 & I4). cbn [bs_nsamples own_rows bs_nadd]. unfold bp_start. destruct (bs_started st0) eqn:Es; cbn [bs_nsamples bs_nadd]; [split; lia|].
      split; [|lia]. assert (own_rows h = 0); [|lia].
      clear -Es E0. revert st0 Es E0. induction h as [|h IH c r|h IH h2 _|h IH]; intros st0 Es E0; cbn [exec own_rows] in *.
      * reflexivity.
      * destruct (exec ops o h) as [s|]; cbn [rbind] in E0; [|discriminate]. unfold and_then, bp_add in E0.
        destruct (add_cols _ _ _ _) as [vv [u|e]]; cbn in E0; [|discriminate]. injection E0 as <-. discriminate.
      * destruct (exec ops o h) as [s|]; cbn [rbind] in E0; [|discriminate]. destruct (exec ops o h2) as [s2|]; cbn [rbind] in E0; [|discriminate].
        unfold and_then, bp_merge in E0. rewrite mergeable_refl in E0. destruct (merge_vars _ _ _ _) as [vv [u|e]]; cbn in E0; [|discriminate]. injection E0 as <-.
        cbn in Es. eapply IH; [exact Es|reflexivity].
      * destruct (exec ops o h) as [s|]; cbn [rbind] in E0; [|discriminate]. unfold and_then, bp_solve in E0. destruct (bs_nadd s =? 0); [discriminate|].
        destruct (solve_vars _ _ _) as [vv [u|e]]; cbn in E0; [|discriminate]. destruct (bo_criteria o); cbn in E0; [discriminate|]. injection E0 as <-.
        cbn in Es. eapply IH; [exact Es|reflexivity].
  - destruct HF as [HF HF2]. destruct (exec ops o h) as [st0|] eqn:E0; cbn [rbind] in H; [|discriminate]. destruct (exec ops o h2) as [st2|] eqn:E2; cbn [rbind] in H; [|discriminate].
    specialize (IH st0 HF eq_refl). specialize (IH2 st2 HF2 eq_refl). unfold and_then, bp_merge in H. rewrite mergeable_refl in H.
    destruct (merge_vars ops names (bs_vars st0) (bs_vars st2)) as [vars [u|e]] eqn:Em; cbn in H; [|discriminate]. injection H as <-. destruct u.
    destruct IH as (I1 & I2 & I3 & I4). destruct IH2 as (J1 & J2 & _). pose proof (merge_vars_ok _ _ _ _ ND Em) as G.
    split; [|split; [|split; [exact I3|exact I4]]].
    + intros v Hv. destruct (I1 v Hv) as (k & Hk & A & _ & Hn & Hn0). destruct (J1 v Hv) as (k2 & Hk2 & A2 & _).
      destruct (proj1 (G v) Hv) as (a & b & c & G1 & G2 & G3 & G4).
      destruct (bs_started st0) eqn:S0; [|rewrite I2 in G1 by reflexivity; discriminate]. destruct (bs_started st2) eqn:S2; [|rewrite J2 in G2 by reflexivity; discriminate].
      rewrite (A eq_refl) in G1. rewrite (A2 eq_refl) in G2. injection G1 as <-. injection G2 as <-.
      exists c. cbn [seen_by live bs_started bs_vars bs_nadd]. rewrite Hk, Hk2. cbn [rbind]. split; [exact G4|]. split; [intros _; exact G3|]. split; [discriminate|].
      apply k_merge_nadd in G4. rewrite G4. auto.
    + cbn [bs_started bs_vars]. intros S0. rewrite I2 in Em by exact S0. clear -Em. destruct names as [|w r]; cbn in Em; [now injection Em as <-|discriminate].
  - cbn [frames_ok] in HF. destruct (exec ops o h) as [st0|] eqn:E0; cbn [rbind] in H; [|discriminate]. specialize (IH st0 HF eq_refl).
    unfold and_then, bp_solve in H. destruct (bs_nadd st0 =? 0); [discriminate|].
    destruct (solve_vars ops names (bs_vars st0)) as [vars [u|e]] eqn:Em; cbn in H; [|discriminate]. destruct u. destruct (bo_criteria o) eqn:Ec; cbn in H; [discriminate|]. injection H as <-.
    destruct IH as (I1 & I2 & I3 & I4). pose proof (solve_vars_ok _ _ _ ND Em) as G.
    split; [|split; [|split; [exact I3|exact I4]]].
    + intros v Hv. destruct (I1 v Hv) as (k & Hk & A & _ & Hn & Hn0). destruct (proj1 (G v) Hv) as (a & c & G1 & G3 & G4).
      destruct (bs_started st0) eqn:S0; [|rewrite I2 in G1 by reflexivity; discriminate]. rewrite (A eq_refl) in G1. injection G1 as <-.
      exists c. cbn [seen_by live bs_started bs_vars bs_nadd]. rewrite Hk. cbn [rbind]. split; [exact G4|]. split; [intros _; exact G3|]. split; [discriminate|].
      apply k_solve_nadd in G4. destruct G4 as [-> _]. auto.
    + cbn [bs_started bs_vars]. intros S0. rewrite I2 in Em by exact S0. clear -Em. destruct names as [|w r]; cbn in Em; [now injection Em as <-|discriminate].
Qed.

Hypothesis NE : names <> [].
Hypothesis NoCrit : bo_criteria o = None.
Lemma rbind_ok {A B} (x : res A) (f : A -> res B) y : rbind x f = Ok y -> exists a, x = Ok a /\ f a = Ok y.
Proof. destruct x; cbn; [eauto|discriminate]. Qed.
Lemma exec_total : forall h, frames_ok h -> (forall v, In v names -> exists k : osk, live ops (opts_for o v) (seen_by v h) = Ok k) ->
  exists st, exec ops o h = Ok st.
Proof.
  induction h as [|h IH cols rows|h IH h2 IH2|h IH]; intros HF H; cbn [exec].
  - eauto.
  - destruct HF as [HF NC]. destruct (IH HF) as (st & E).
    { intros v Hv. destruct (H v Hv) as (k & Hk). cbn [seen_by] in Hk. destruct (column_of v cols); [|eauto]. cbn [live] in Hk. apply rbind_ok in Hk. destruct Hk as (a & Ha & _). eauto. }
    rewrite E. cbn [rbind]. pose proof (exec_inv h st HF E) as I. unfold bp_add.
    destruct (add_cols_total names cols (bs_vars (bp_start o st)) NC) as (vars' & Ea).
    { intros v Hv. destruct (H v Hv) as (k' & Hk'). cbn [seen_by] in Hk'. pose proof I as (I1 & _). destruct (I1 v Hv) as (k & Hk & _).
      exists k, k'. split; [eapply started_vars; eauto|]. rewrite add_one_names by exact Hv. destruct (column_of v cols); [cbn [live] in Hk'; rewrite Hk in Hk'; exact Hk'|congruence]. }
    rewrite Ea. cbn. eauto.
  - destruct HF as [HF HF2]. destruct (IH HF) as (st & E).
    { intros v Hv. destruct (H v Hv) as (k & Hk). cbn [seen_by live] in Hk. apply rbind_ok in Hk. destruct Hk as (a & Ha & _). eauto. }
    destruct (IH2 HF2) as (st2 & E2).
    { intros v Hv. destruct (H v Hv) as (k & Hk). cbn [seen_by live] in Hk. apply rbind_ok in Hk. destruct Hk as (a & Ha & Hb). apply rbind_ok in Hb. destruct Hb as (b & Hb & _). eauto. }
    rewrite E, E2. cbn [rbind]. pose proof (exec_inv h st HF E) as (I1 & I2 & _). pose proof (exec_inv h2 st2 HF2 E2) as (J1 & J2 & _).
    unfold bp_merge. rewrite mergeable_refl. destruct (merge_vars_total names (bs_vars st) (bs_vars st2) ND) as (vars' & Em); [|rewrite Em; cbn; eauto].
    intros v Hv. destruct (H v Hv) as (k' & Hk'). cbn [seen_by live] in Hk'. destruct (I1 v Hv) as (k & Hk & A & B & _). destruct (J1 v Hv) as (k2 & Hk2 & A2 & B2 & _).
    rewrite Hk, Hk2 in Hk'. cbn [rbind] in Hk'. exists k, k2, k'.
    destruct (bs_started st) eqn:S1; [|rewrite (B eq_refl) in Hk'; discriminate].
    destruct (bs_started st2) eqn:S2; [|rewrite (B2 eq_refl) in Hk'; unfold and_then, k_merge in Hk'; destruct (k_data k); discriminate]. auto.
  - cbn [frames_ok] in HF. destruct (IH HF) as (st & E).
    { intros v Hv. destruct (H v Hv) as (k & Hk). cbn [seen_by live] in Hk. apply rbind_ok in Hk. destruct Hk as (a & Ha & _). eauto. }
    rewrite E. cbn [rbind]. pose proof (exec_inv h st HF E) as (I1 & I2 & I3 & I4). unfold bp_solve.
    assert (Hs : forall v, In v names -> exists k k', dget (bs_vars st) v = Some k /\ and_then (k_solve ops k) = Ok k' /\ 0 < bs_nadd st).
    { intros v Hv. destruct (H v Hv) as (k' & Hk'). cbn [seen_by live] in Hk'. destruct (I1 v Hv) as (k & Hk & A & B & C1 & C2). rewrite Hk in Hk'. cbn [rbind] in Hk'.
      exists k, k'. pose proof (k_solve_nadd _ _ Hk') as [_ Hn]. destruct (bs_started st) eqn:S1; [|rewrite (B eq_refl) in Hn; cbn in Hn; lia].
      split; [now apply A|]. split; [exact Hk'|]. destruct C1; [contradiction|assumption]. }
    assert (Hp : 0 < bs_nadd st) by (destruct names as [|v r] eqn:En; [contradiction|]; destruct (Hs v (or_introl eq_refl)) as (? & ? & _ & _ & ?); assumption).
    assert ((bs_nadd st =? 0) = false) as -> by (apply Z.eqb_neq; lia).
    destruct (solve_vars_total names (bs_vars st) ND) as (vars' & Em); [|rewrite Em, NoCrit; cbn; eauto].
    intros v Hv. destruct (Hs v Hv) as (k & k' & A & B & _). eauto.
Qed.
End Ops.
