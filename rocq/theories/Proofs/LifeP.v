(** Lemmas on the life cycle of the OptimalBinning object. *)
From Coq Require Import List ZArith QArith Bool Arith Lia.
From Verif Require Import Model.Arr Model.Core Model.Lifecycle Spec.CoreSpec Spec.LifecycleSpec
  Proofs.ArrP Proofs.CoreP Proofs.FitP Proofs.CoreFinal.
Import ListNotations.
Open Scope Z_scope.

(** ** is_fitted *)
Lemma post_fitted e x so o sol sp nev ev c s o' r :
  post e x so o sol sp nev ev c s = (o', r) -> r = Ok tt /\ o_fitted o' = true \/ (r <> Ok tt) /\ o_fitted o' = o_fitted o.
Proof.
  unfold post. intros H.
  destruct (o_spec o) as [p|]; [|injection H as <- <-; right; split; [discriminate|reflexivity]].
  destruct (o_miss o) as [m|]; [|injection H as <- <-; right; split; [discriminate|reflexivity]].
  destruct (bin_info_1 _ _ _ _ _ _) as [a|]; [|injection H as <- <-; right; split; [discriminate|reflexivity]].
  destruct (bin_info_1 _ _ _ _ _ _) as [b|]; [|injection H as <- <-; right; split; [discriminate|reflexivity]].
  destruct (map num (x_clean so)); injection H as <- <-; [right; split; [discriminate|reflexivity]|left; split; reflexivity].
Qed.
Lemma optimise_fitted e x so o sp nev ev c o' r :
  optimise e x so o sp nev ev c = (o', r) -> r = Ok tt /\ o_fitted o' = true \/ (r <> Ok tt) /\ o_fitted o' = o_fitted o.
Proof.
  unfold optimise. destruct (_ <=? _)%nat; intros H.
  - exact (post_fitted _ _ _ _ _ _ _ _ _ _ _ _ H).
  - destruct (e_solver _ _ _ _ _ _) as [[st sol]|k]; [|injection H as <- <-; right; split; [discriminate|reflexivity]].
    exact (post_fitted _ _ _ _ _ _ _ _ _ _ _ _ H).
Qed.
Lemma refine_fitted e x so o sp o' r :
  refine_and_optimise e x so o sp = (o', r) -> r = Ok tt /\ o_fitted o' = true \/ (r <> Ok tt) /\ o_fitted o' = o_fitted o.
Proof.
  unfold refine_and_optimise. destruct (prebins_st _ _ _ _ _ _) as [[ps q]|]; intros H.
  - destruct q as [[[s a] b]|k]; [|injection H as <- <-; right; split; [discriminate|reflexivity]].
    apply optimise_fitted in H. exact H.
  - injection H as <- <-. right. split; [discriminate|reflexivity].
Qed.
Lemma fit_fitted e d o o' r :
  fit e d o = (o', r) -> r = Ok tt /\ o_fitted o' = true \/ (r <> Ok tt) /\ o_fitted o' = o_fitted o.
Proof.
  unfold fit. destruct (params_ok o); intros H; cbn [negb] in H; [|injection H as <- <-; right; split; [discriminate|reflexivity]].
  destruct (o_user o) as [[c [|u us]]|] eqn:E.
  - exact (optimise_fitted _ _ _ _ _ _ _ _ _ _ H).
  - destruct (negb (distinct (u :: us))); [injection H as <- <-; right; split; [discriminate|reflexivity]|].
    apply refine_fitted in H. exact H.
  - destruct (e_prebin _ _) as [s0|k]; [|injection H as <- <-; right; split; [discriminate|reflexivity]].
    exact (refine_fitted _ _ _ _ _ _ _ H).
Qed.

Lemma read_fitted o fs p o' r : read_json o fs p = (o', r) -> o_fitted o' = true.
Proof. unfold read_json. destruct (fs p) as [[]|]; intros H; injection H as <- <-; reflexivity. Qed.
Lemma on_table_fitted w f w' r : on_table w f = (w', r) -> o_fitted (fst w') = o_fitted (fst w).
Proof.
  unfold on_table. destruct (o_fitted (fst w)) eqn:E; cbn [negb]; [|intros H; injection H as <- <-; exact E].
  destruct (o_table (fst w)); [|intros H; injection H as <- <-; exact E].
  destruct (f t) as [t' v]. intros H. injection H as <- <-. reflexivity.
Qed.

Lemma step_fitted e w c w' r : step e w c = (w', r) ->
  (o_fitted (fst w') = true <-> o_fitted (fst w) = true \/ is_read c \/ (is_fit c /\ exists v, r = Ok v)).
Proof.
  destruct w as [o fs]. intros H.
  assert (Same : forall c, ~ is_read c -> ~ is_fit c -> o_fitted (fst w') = o_fitted o ->
            (o_fitted (fst w') = true <-> o_fitted o = true \/ is_read c \/ (is_fit c /\ exists v, r = Ok v))).
  { intros c' A B E. rewrite E. tauto. }
  destruct c; cbn [step] in H; cbn [fst];
    try (apply Same; [intros [? K]; discriminate K|intros [? K]; discriminate K|]).
  all: try (injection H as <- <-; reflexivity).
  all: try (apply on_table_fitted in H; exact H).
  - destruct (fit e d o) as [o' q] eqn:F. apply fit_fitted in F. injection H as <- <-. cbn [fst].
    destruct F as [[-> E]|[N E]]; rewrite E.
    + split; [|reflexivity]. intros _. right. right. split; [exists d; reflexivity|exists VNone; reflexivity].
    + split; [intros K; left; exact K|]. intros [K|[[? K]|[_ [v K]]]]; [exact K|discriminate K|].
      destruct q as [[]|k]; [contradiction N; reflexivity|discriminate K].
  - destruct (to_json o fs p) as [fs' q]. injection H as <- <-. reflexivity.
  - destruct (read_json o fs p) as [o' q] eqn:F. apply read_fitted in F. injection H as <- <-. cbn [fst].
    split; [|intros _; exact F]. intros _. right. left. exists p. reflexivity.
Qed.

Lemma exec_cons e w c h w' outs : exec e w (c :: h) = (w', outs) ->
  exists w1 v l, step e w c = (w1, v) /\ exec e w1 h = (w', l) /\ outs = v :: l.
Proof.
  cbn [exec]. destruct (step e w c) as [w1 v]. destruct (exec e w1 h) as [w2 l] eqn:E. intros H.
  injection H as <- <-. exists w1, v, l. repeat split; assumption || reflexivity.
Qed.
Lemma exec_length e w h w' outs : exec e w h = (w', outs) -> length outs = length h.
Proof.
  revert w outs. induction h as [|c h IH]; intros w outs H; [injection H as <- <-; reflexivity|].
  apply exec_cons in H. destruct H as (w1 & v & l & _ & E & ->). cbn. f_equal. exact (IH _ _ E).
Qed.
Lemma exec_app e w h1 h2 w2 outs : exec e w (h1 ++ h2) = (w2, outs) ->
  exists w1 l1 l2, exec e w h1 = (w1, l1) /\ exec e w1 h2 = (w2, l2) /\ outs = l1 ++ l2.
Proof.
  revert w outs. induction h1 as [|c h IH]; intros w outs H.
  - exists w, [], outs. repeat split; assumption || reflexivity.
  - cbn [app] in H. apply exec_cons in H. destruct H as (w1 & v & l & S & E & ->).
    destruct (IH _ _ E) as (w3 & l1 & l2 & E1 & E2 & ->). exists w3, (v :: l1), l2.
    cbn [exec]. rewrite S, E1. repeat split; assumption.
Qed.

Lemma succeeded_cons P c h v l : succeeded P (c :: h) (v :: l) <-> (P c /\ exists a, v = Ok a) \/ succeeded P h l.
Proof.
  split.
  - intros (i & c' & a & H & Pc & O). destruct i as [|i]; cbn in H, O.
    + injection H as ->. injection O as ->. left. split; [exact Pc|exists a; reflexivity].
    + right. exists i, c', a. repeat split; assumption.
  - intros [[Pc [a ->]]|(i & c' & a & H & Pc & O)].
    + exists 0%nat, c, a. repeat split; assumption || reflexivity.
    + exists (S i), c', a. repeat split; assumption.
Qed.
Lemma called_cons (P : op -> Prop) c h : called P (c :: h) <-> P c \/ called P h.
Proof.
  split.
  - intros (x & [->|I] & Px); [left; exact Px|right; exists x; split; assumption].
  - intros [Pc|(x & I & Px)]; [exists c; split; [left; reflexivity|exact Pc]|exists x; split; [right; exact I|exact Px]].
Qed.
Lemma succeeded_nil P l : ~ succeeded P [] l.
Proof. intros (i & c & a & H & _). destruct i; discriminate. Qed.
Lemma called_nil P : ~ called P [].
Proof. intros (c & [] & _). Qed.

Lemma exec_fitted e h : forall w w' outs, exec e w h = (w', outs) ->
  (o_fitted (fst w') = true <-> o_fitted (fst w) = true \/ succeeded is_fit h outs \/ called is_read h).
Proof.
  induction h as [|c h IH]; intros w w' outs H.
  - injection H as <- <-. split; [tauto|]. intros [K|[K|K]]; [exact K|destruct (succeeded_nil _ _ K)|destruct (called_nil _ K)].
  - apply exec_cons in H. destruct H as (w1 & v & l & S & E & ->).
    rewrite (IH _ _ _ E), (step_fitted _ _ _ _ _ S), succeeded_cons, called_cons. tauto.
Qed.

(** ** transform never raises NotFitted once fitted *)
Lemma all_res_err {A} (l : list (res A)) k : all_res l = Err k -> In (Err k) l.
Proof.
  induction l as [|[a|k'] r IH]; cbn; intros H; [discriminate| |injection H as ->; left; reflexivity].
  destruct (all_res r); [discriminate|]. right. apply IH. exact H.
Qed.
Definition idx_like {V} (r : res V) : Prop := match r with Ok _ => True | Err k => k = IndexError end.
Lemma idx_idx {V} (l : list V) i : idx_like (idx l i).
Proof. unfold idx. destruct (nth_error l i); [exact I|reflexivity]. Qed.
Lemma table_or_const_idx {V} k (a : marg V) mv i : idx_like (table_or_const k a mv i).
Proof. unfold table_or_const. destruct (use_table k a); [apply idx_idx|]. destruct a; [apply idx_idx|exact I]. Qed.
Lemma special_dict_idx {V} k (a : marg V) mv d : forall base x cur, idx_like cur ->
  idx_like (special_dict k a mv base d x cur).
Proof.
  induction d as [|[ky codes] r IH]; intros base x cur H; cbn [special_dict]; [exact H|].
  apply IH. destruct (isin codes x); [apply table_or_const_idx|exact H].
Qed.
Lemma transform1_idx {V} s sp k ms mm (mv : list V) u x : idx_like (transform1_num s sp k ms mm mv u x).
Proof.
  unfold transform1_num. destruct (x_isnull x); [apply table_or_const_idx|].
  assert (B : idx_like (if is_clean sp x then let i := digitize s (num x) in
                 if (i <? S (length s))%nat then idx mv i else Ok u else Ok u)).
  { destruct (is_clean sp x); [|exact I]. cbv zeta. destruct (_ <? _)%nat; [apply idx_idx|exact I]. }
  unfold apply_special. destruct sp; [exact B| |apply special_dict_idx; exact B].
  destruct (isin l x); [apply table_or_const_idx|exact B].
Qed.
Lemma transform_not_fitted e o m xs : transform e o m xs = Err NotFitted <-> o_fitted o = false.
Proof.
  unfold transform. destruct (o_fitted o); cbn [negb]; [|tauto].
  split; [|discriminate]. intros H. exfalso.
  destruct (o_splits o) as [[c s]|]; [|discriminate].
  destruct m.
  - destruct (all_res _) as [l|k] eqn:E; [discriminate|]. injection H as ->. apply all_res_err in E.
    apply in_map_iff in E. destruct E as (x & E & _).
    pose proof (transform1_idx s (e_special e) MIndices ms mm
      (map Z.of_nat (seq 0 (S (length s) + n_special (e_special e) + 1))) (-1) x) as K.
    unfold transform_indices in E. rewrite E in K. discriminate K.
  - destruct (o_counts o) as [[a b]|]; [|discriminate].
    destruct (all_res _) as [l|k] eqn:E; [discriminate|]. injection H as ->. apply all_res_err in E.
    apply in_map_iff in E. destruct E as (x & E & _).
    pose proof (transform1_idx s (e_special e) MValue ms mm (event_rates a b) 0%Q x) as K. rewrite E in K. discriminate K.
Qed.

Lemma needs_fit_not_fitted e w c : needs_fit c -> (snd (step e w c) = Err NotFitted <-> o_fitted (fst w) = false).
Proof.
  destruct w as [o fs]. cbn [fst]. destruct c; cbn [needs_fit]; intros N; try contradiction; cbn [step snd].
  - rewrite <- (transform_not_fitted e o m xs). destruct (transform e o m xs); split; congruence.
  - destruct (o_fitted o); cbn [negb]; split; congruence.
  - destruct (o_fitted o); cbn [negb]; split; congruence.
  - destruct (o_fitted o); cbn [negb]; split; congruence.
  - destruct (o_fitted o); cbn [negb]; split; congruence.
  - unfold to_json. destruct (o_fitted o); cbn [negb]; [|split; reflexivity].
    split; [|discriminate]. destruct (o_table o) as [t|]; [|discriminate].
    destruct (t_splits_c t); [discriminate|]. destruct (json_ok t); discriminate.
  - unfold on_table. cbn [fst]. destruct (o_fitted o); cbn [negb]; [|split; reflexivity].
    split; [|discriminate]. destruct (o_table o) as [t|]; [|discriminate]. destruct valid; discriminate.
Qed.
Lemma C49_not_fitted e user fixed fs h w outs c :
  exec e (new user fixed, fs) h = (w, outs) -> needs_fit c ->
  (snd (step e w c) = Err NotFitted <-> ~ succeeded is_fit h outs /\ ~ called is_read h).
Proof.
  intros H N. rewrite (needs_fit_not_fitted e w c N). pose proof (exec_fitted _ _ _ _ _ H) as F. cbn [fst new o_fitted] in F.
  destruct (o_fitted (fst w)).
  - split; [discriminate|]. intros [A B]. destruct F as [F _]. destruct (F eq_refl) as [K|[K|K]]; [discriminate|tauto|tauto].
  - split; [|reflexivity]. intros _. destruct F as [_ F]. split; intros K; discriminate F; tauto.
Qed.

(** ** built / analyzed flags *)
Definition tb (w : world) : option table := o_table (fst w).
Lemma step_table e w c w' r : step e w c = (w', r) -> o_fitted (fst w) = true -> ~ is_read c ->
  ~ (is_fit c /\ exists v, r = Ok v) ->
  forall t, tb w = Some t -> exists t', tb w' = Some t' /\
    t_built t' = (t_built t || match c, r with Build _, Ok _ => true | _, _ => false end) /\
    t_analyzed t' = (t_analyzed t || match c, r with Analysis _, Ok _ => true | _, _ => false end) /\
    same_contents t t'.
Proof.
  destruct w as [o fs]. unfold tb. cbn [fst]. intros H F NR NF t T.
  assert (Same : forall w1 : world, o_table (fst w1) = Some t ->
     match c with Build _ => False | Analysis _ => False | _ => True end ->
     exists t', o_table (fst w1) = Some t' /\
      t_built t' = (t_built t || match c, r with Build _, Ok _ => true | _, _ => false end) /\
      t_analyzed t' = (t_analyzed t || match c, r with Analysis _, Ok _ => true | _, _ => false end) /\ same_contents t t').
  { intros w1 E M. exists t. split; [exact E|].
    destruct c; try contradiction; rewrite !orb_false_r; (split; [reflexivity|]); (split; [reflexivity|]); repeat split. }
  destruct c; cbn [step] in H.
  - destruct (fit e d o) as [o' q] eqn:E. injection H as <- <-. apply Same; [|exact I]. cbn [fst].
    assert (NQ : q <> Ok tt). { intros ->. apply NF. split; [exists d; reflexivity|exists VNone; reflexivity]. }
    clear NF. revert E NQ. rewrite <- T. clear. unfold fit.
    assert (P : forall x so o1 sol sp nev ev c s o2 q, post e x so o1 sol sp nev ev c s = (o2, q) -> q <> Ok tt ->
                o_table o2 = o_table o1).
    { clear. intros x so o1 sol sp nev ev c s o2 q. unfold post.
      destruct (o_spec o1); [|intros H _; injection H as <- <-; reflexivity].
      destruct (o_miss o1); [|intros H _; injection H as <- <-; reflexivity].
      destruct (bin_info_1 _ _ _ _ _ _); [|intros H _; injection H as <- <-; reflexivity].
      destruct (bin_info_1 _ _ _ _ _ _); [|intros H _; injection H as <- <-; reflexivity].
      destruct (map num (x_clean so)); intros H N; injection H as <- <-; [reflexivity|contradiction N; reflexivity]. }
    assert (O : forall x so o1 sp nev ev c o2 q, optimise e x so o1 sp nev ev c = (o2, q) -> q <> Ok tt ->
                o_table o2 = o_table o1).
    { intros x so o1 sp nev ev c o2 q0. unfold optimise. destruct (_ <=? _)%nat.
      - intros H N. exact (P _ _ _ _ _ _ _ _ _ _ _ H N).
      - destruct (e_solver _ _ _ _ _ _) as [[st sol]|k]; [|intros H _; injection H as <- <-; reflexivity].
        intros H N. exact (P _ _ _ _ _ _ _ _ _ _ _ H N). }
    assert (R : forall x so o1 sp o2 q, refine_and_optimise e x so o1 sp = (o2, q) -> q <> Ok tt ->
                o_table o2 = o_table o1).
    { intros x so o1 sp o2 q0. unfold refine_and_optimise. destruct (prebins_st _ _ _ _ _ _) as [[ps q1]|].
      - destruct q1 as [[[s a] b]|k]; [|intros H _; injection H as <- <-; reflexivity].
        intros H N. exact (O _ _ _ _ _ _ _ _ _ H N).
      - intros H _; injection H as <- <-; reflexivity. }
    destruct (params_ok o); cbn [negb]; [|intros H _; injection H as <- <-; reflexivity].
    destruct (o_user o) as [[c [|u us]]|].
    + intros H N. exact (O _ _ _ _ _ _ _ _ _ H N).
    + destruct (negb (distinct (u :: us))); [intros H _; injection H as <- <-; reflexivity|].
      intros H N. exact (R _ _ _ _ _ _ H N).
    + destruct (e_prebin _ _); [|intros H _; injection H as <- <-; reflexivity]. intros H N. exact (R _ _ _ _ _ _ H N).
  - injection H as <- <-. apply Same; [exact T|exact I].
  - injection H as <- <-. apply Same; [exact T|exact I].
  - injection H as <- <-. apply Same; [exact T|exact I].
  - injection H as <- <-. apply Same; [exact T|exact I].
  - injection H as <- <-. apply Same; [exact T|exact I].
  - destruct (to_json o fs p) as [fs' q]. injection H as <- <-. apply Same; [exact T|exact I].
  - contradiction NR. exists p. reflexivity.
  - injection H as <- <-. apply Same; [exact T|exact I].
  - unfold on_table in H. cbn [fst snd] in H. rewrite F, T in H. cbn [negb] in H.
    destruct valid; injection H as <- <-; eexists; (split; [reflexivity|]); cbn [flags t_built t_analyzed];
      rewrite ?orb_true_r, ?orb_false_r; repeat split.
  - unfold on_table in H. cbn [fst snd] in H. rewrite F, T in H. cbn [negb] in H.
    destruct (negb (t_built t)); injection H as <- <-; (apply Same; [reflexivity|exact I]).
  - unfold on_table in H. cbn [fst snd] in H. rewrite F, T in H. cbn [negb] in H.
    destruct (t_built t) eqn:B; cbn [negb] in H; [destruct valid|]; injection H as <- <-; eexists; (split; [reflexivity|]);
      cbn [flags t_built t_analyzed]; rewrite ?B, ?orb_true_r, ?orb_false_r; repeat split.
  - unfold on_table in H. cbn [fst snd] in H. rewrite F, T in H. cbn [negb] in H.
    injection H as <- <-; (apply Same; [reflexivity|exact I]).
  - unfold on_table in H. cbn [fst snd] in H. rewrite F, T in H. cbn [negb] in H.
    injection H as <- <-; (apply Same; [reflexivity|exact I]).
Qed.

Lemma exec_table e h : forall w w' outs t, exec e w h = (w', outs) -> o_fitted (fst w) = true -> tb w = Some t ->
  ~ called is_read h -> ~ succeeded is_fit h outs ->
  exists t', tb w' = Some t' /\ (t_built t' = true <-> t_built t = true \/ succeeded is_build h outs) /\
    (t_analyzed t' = true <-> t_analyzed t = true \/ succeeded is_analysis h outs) /\ same_contents t t'.
Proof.
  induction h as [|c h IH]; intros w w' outs t H F T NR NF.
  - injection H as <- <-. exists t. split; [exact T|]. split; [|split].
    + split; [tauto|]. intros [K|K]; [exact K|destruct (succeeded_nil _ _ K)].
    + split; [tauto|]. intros [K|K]; [exact K|destruct (succeeded_nil _ _ K)].
    + repeat split.
  - apply exec_cons in H. destruct H as (w1 & v & l & S & E & ->).
    rewrite called_cons in NR. rewrite succeeded_cons in NF.
    destruct (step_table _ _ _ _ _ S F (fun K => NR (or_introl K)) (fun K => NF (or_introl K)) t T) as (t1 & T1 & B1 & A1 & C1).
    assert (F1 : o_fitted (fst w1) = true). { apply (step_fitted _ _ _ _ _ S). left. exact F. }
    destruct (IH _ _ _ t1 E F1 T1 (fun K => NR (or_intror K)) (fun K => NF (or_intror K))) as (t2 & T2 & B2 & A2 & C2).
    exists t2. split; [exact T2|]. split; [|split].
    + rewrite B2, B1, orb_true_iff, succeeded_cons. split.
      * intros [[K|K]|K]; [tauto| |tauto]. right. left. destruct c; try discriminate. destruct v as [a|]; [|discriminate].
        split; [exists valid; reflexivity|exists a; reflexivity].
      * intros [K|[[[b ->] [a ->]]|K]]; [tauto| |tauto]. left. right. reflexivity.
    + rewrite A2, A1, orb_true_iff, succeeded_cons. split.
      * intros [[K|K]|K]; [tauto| |tauto]. right. left. destruct c; try discriminate. destruct v as [a|]; [|discriminate].
        split; [exists valid; reflexivity|exists a; reflexivity].
      * intros [K|[[[b ->] [a ->]]|K]]; [tauto| |tauto]. left. right. reflexivity.
    + unfold same_contents in *. intuition congruence.
Qed.

(** a successful fit leaves a fresh table *)
Lemma post_table e x so o sol sp nev ev c s o' : post e x so o sol sp nev ev c s = (o', Ok tt) ->
  exists t a b, o_table o' = Some t /\ t_built t = false /\ t_analyzed t = false /\ t_splits t = s /\ t_splits_c t = c /\
    t_special t = e_special e /\ t_special_c t = e_special_c e /\ t_nev t = a /\ t_ev t = b /\ o_counts o' = Some (a, b) /\
    t_int t = d_int x /\ t_others_c t = PyList /\ t_user t = o_user o /\ o_fitted o' = true /\ o_splits o' = o_splits o /\
    o_user o' = o_user o /\ o_fixed o' = o_fixed o.
Proof.
  unfold post. intros H.
  destruct (o_spec o) as [p|]; [|discriminate]. destruct (o_miss o) as [m|]; [|discriminate].
  destruct (bin_info_1 _ _ _ _ _ _) as [a|]; [|discriminate].
  destruct (bin_info_1 _ _ _ _ _ _) as [b|]; [|discriminate].
  destruct (map num (x_clean so)) as [|z zs]; [discriminate|]. injection H as <-.
  eexists. exists a, b. repeat split.
Qed.
Lemma optimise_table e x so o sp nev ev c o' : optimise e x so o sp nev ev c = (o', Ok tt) ->
  exists t a b s c', o_table o' = Some t /\ t_built t = false /\ t_analyzed t = false /\ t_splits t = s /\ t_splits_c t = c' /\
    t_special t = e_special e /\ t_special_c t = e_special_c e /\ t_nev t = a /\ t_ev t = b /\ o_counts o' = Some (a, b) /\
    t_int t = d_int x /\ t_others_c t = PyList /\ t_user t = o_user o /\ o_fitted o' = true /\ o_splits o' = Some (c', s) /\
    o_user o' = o_user o /\ o_fixed o' = o_fixed o /\ (c = NdArray -> c' = NdArray).
Proof.
  unfold optimise. destruct (_ <=? _)%nat; intros H.
  - apply post_table in H. destruct H as (t & a & b & P). exists t, a, b, sp, c.
    decompose [and] P. repeat split; try assumption. tauto.
  - destruct (e_solver _ _ _ _ _ _) as [[st sol]|k]; [|discriminate].
    apply post_table in H. destruct H as (t & a & b & P). exists t, a, b, (select (init sol) sp), NdArray.
    decompose [and] P. repeat split; try assumption.
Qed.
