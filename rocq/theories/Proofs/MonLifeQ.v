(** Proofs for C76: the tables. *)
From Coq Require Import List ZArith QArith Bool Arith Lia Reals Lra Sorting.
From Verif Require Import Model.Arr Model.Core Model.Multi Model.Metrics Model.MultiT Model.MultiTable Model.Process Model.Classif Model.Monitor Model.MonLife
  Spec.CoreSpec Spec.MonitorSpec Spec.MonLifeSpec Proofs.ArrP Proofs.CoreP Proofs.MonitorP Proofs.IndepP Proofs.MonLifeP.
Import ListNotations.
Open Scope Z_scope.

Lemma n_where_unique {A} (P : A -> Prop) d c c' : n_where P d c -> n_where P d c' -> c = c'.
Proof.
  intros (f & F1 & ->) (g & G1 & ->). f_equal. f_equal. apply filter_ext. intros s. apply eq_true_iff_eq. now rewrite F1, G1.
Qed.
Lemma count_nonneg {A} (p : A -> bool) l : 0 <= count_if p l.
Proof. unfold count_if. lia. Qed.
Section Bins.
Variables (splits : list Z) (Hs : increasing splits).
Lemma event_where d i : n_where (event_in_bin splits i) d (sys_event splits d i).
Proof.
  unfold sys_event, count_if. exists (fun s : ssample => negb (fst s) && Nat.eqb (digitize_r splits (snd s)) i). split; [|reflexivity].
  intros s. rewrite andb_true_iff, negb_true_iff, Nat.eqb_eq. unfold event_in_bin. now rewrite (digitize_r_in_bin splits (snd s) i Hs).
Qed.
Lemma records_split d i : sys_nonevent splits d i + sys_event splits d i = count_if (fun s => Nat.eqb (digitize_r splits (snd s)) i) d.
Proof.
  unfold sys_nonevent, sys_event, count_if. induction d as [|[y z] d IH]; [reflexivity|]. cbn [filter fst snd]. destruct y; cbn [negb andb]; destruct (Nat.eqb _ i); cbn [length]; lia.
Qed.
Lemma record_where d i : n_where (in_score_bin splits i) d (sys_nonevent splits d i + sys_event splits d i).
Proof.
  rewrite records_split. unfold count_if. eexists. split; [|reflexivity]. intros s. cbv beta. rewrite Nat.eqb_eq. unfold in_score_bin. now rewrite (digitize_r_in_bin splits (snd s) i Hs).
Qed.
Lemma populated_counts a e i : populated splits a e i <->
  (0 < sys_nonevent splits a i + sys_event splits a i /\ 0 < sys_nonevent splits e i + sys_event splits e i /\
   0 < sys_nonevent splits a i + sys_nonevent splits e i /\ 0 < sys_event splits a i + sys_event splits e i).
Proof.
  split.
  - intros (na & ne & ea & ee & N1 & N2 & N3 & N4 & P1 & P2 & P3).
    rewrite (n_where_unique _ _ _ _ N1 (record_where a i)) in *. rewrite (n_where_unique _ _ _ _ N2 (record_where e i)) in *.
    rewrite (n_where_unique _ _ _ _ N3 (event_where a i)) in *. rewrite (n_where_unique _ _ _ _ N4 (event_where e i)) in *. lia.
  - intros (P1 & P2 & P3 & P4). exists (sys_nonevent splits a i + sys_event splits a i), (sys_nonevent splits e i + sys_event splits e i), (sys_event splits a i), (sys_event splits e i).
    split; [apply record_where|]. split; [apply record_where|]. split; [apply event_where|]. split; [apply event_where|]. lia.
Qed.
Lemma counts_ge a i : 0 <= sys_nonevent splits a i /\ 0 <= sys_event splits a i.
Proof. split; apply count_nonneg. Qed.
Lemma test_ok a e i : populated splits a e i -> exists t, chi2_contingency (test_obs splits a e i) = Ok t /\ (0 <= t)%R /\
  (t = 0%R <-> sys_event splits a i * sys_nonevent splits e i = sys_event splits e i * sys_nonevent splits a i).
Proof.
  intros H. apply populated_counts in H. destruct (counts_ge a i), (counts_ge e i). unfold test_obs. apply chi2_two; tauto.
Qed.
Lemma test_err a e i : ~ populated splits a e i -> chi2_contingency (test_obs splits a e i) = Err ValueError.
Proof.
  intros H. rewrite populated_counts in H. destruct (counts_ge a i), (counts_ge e i). unfold test_obs. apply chi2_two_err; tauto.
Qed.
Lemma populated_dec a e i : populated splits a e i \/ ~ populated splits a e i.
Proof. rewrite populated_counts. lia. Qed.
Lemma tests_ok a e : forall is l, tests_loop splits a e is = Ok l -> length l = length is /\
  forall k i, nth_error is k = Some i -> populated splits a e i /\ exists t, chi2_contingency (test_obs splits a e i) = Ok t /\
    nth_error l k = Some (mkBT (sys_nonevent splits a i + sys_event splits a i) (sys_nonevent splits e i + sys_event splits e i) (rate_at splits a i) (rate_at splits e i) t).
Proof.
  induction is as [|i is IH]; intros l H; cbn [tests_loop] in H; [injection H as <-; split; [reflexivity|]; intros [|k] i [=]|].
  destruct (chi2_contingency _) as [t|] eqn:E; [|discriminate]. destruct (tests_loop splits a e is) as [l0|] eqn:E0; [|discriminate]. injection H as <-. destruct (IH l0 eq_refl) as [L N].
  split; [cbn; now rewrite L|]. intros [|k] j Hj; [injection Hj as <-|].
  - split; [|exists t; split; [exact E|reflexivity]]. destruct (populated_dec a e i) as [P|P]; [exact P|]. rewrite (test_err a e i P) in E. discriminate.
  - exact (N k j Hj).
Qed.
Lemma tests_all a e : forall is, (forall i, In i is -> populated splits a e i) -> exists l, tests_loop splits a e is = Ok l.
Proof.
  induction is as [|i is IH]; intros H; cbn [tests_loop]; [eauto|]. destruct (test_ok a e i (H i (or_introl eq_refl))) as (t & -> & _). destruct (IH (fun j Hj => H j (or_intror Hj))) as (l & ->). eauto.
Qed.
Lemma tests_fail a e : forall is i, In i is -> ~ populated splits a e i -> tests_loop splits a e is = Err ValueError.
Proof.
  induction is as [|j is IH]; intros i Hi N; [destruct Hi|]. destruct Hi as [<-|Hi]; cbn [tests_loop]; [now rewrite (test_err a e j N)|]. destruct (populated_dec a e j) as [P|P]; [|now rewrite (test_err a e j P)].
  destruct (test_ok a e j P) as (t & -> & _). now rewrite (IH i Hi N).
Qed.
End Bins.

Lemma nth_error_map2 {A B C} (f : A -> B -> C) : forall l m k a b, nth_error l k = Some a -> nth_error m k = Some b -> nth_error (map2 f l m) k = Some (f a b).
Proof. induction l as [|x l IH]; intros [|y m] [|k] a b H1 H2; try discriminate; cbn in *; [congruence|]. now apply IH. Qed.
Lemma map2_fst {A B} : forall (l : list A) (m : list B), length l = length m -> map fst (map2 pair l m) = l.
Proof. induction l as [|x l IH]; intros [|y m] L; try discriminate; [reflexivity|]. cbn. f_equal. apply IH. now injection L. Qed.
Lemma map2_snd {A B} : forall (l : list A) (m : list B), length l = length m -> map snd (map2 pair l m) = m.
Proof. induction l as [|x l IH]; intros [|y m] L; try discriminate; [reflexivity|]. cbn. f_equal. apply IH. now injection L. Qed.
Lemma map2_len {A B C} (f : A -> B -> C) : forall l m, length l = length m -> length (map2 f l m) = length l.
Proof. induction l as [|x l IH]; intros [|y m] L; try discriminate; [reflexivity|]. cbn. f_equal. apply IH. now injection L. Qed.
Lemma bins_nth splits i : (i < S (length splits))%nat -> nth_error (bins_of splits) i = Some i.
Proof. intros H. unfold bins_of. rewrite (nth_error_nth' _ 0%nat) by (now rewrite seq_length). now rewrite seq_nth by exact H. Qed.

(** what a successful binary fit stores *)
Lemma fit_binary_ok u sc o Xa ya Xe ye s s' : fit_mon u sc o Xa (YBin ya) Xe (YBin ye) s = (s', Ok tt) ->
  exists za ze splits t p v, sc_score sc Xa = Ok za /\ sc_score sc Xe = Ok ze /\ u_prebin u o ze (YBin ye) = Ok splits /\ length za = length ya /\ length ze = length ye /\
    tests_loop splits (combine ya za) (combine ye ze) (bins_of splits) = Ok t /\ perf_binary sc Xa ya Xe ye = Ok p /\ fit_vars sc Xa Xe = Ok v /\
    s' = mkM (Some DBinary) (Some (TgBin (target_analysis splits (combine ya za)) (target_analysis splits (combine ye ze)))) (Some (splits, sys_rows splits (combine ya za) (combine ye ze)))
           (Some (TBin t)) (Some p) (Some splits) (Some (sys_records splits (combine ya za), sys_records splits (combine ye ze))) (Some v) true.
Proof.
  unfold fit_mon, fit_binary, finish_fit. cbv zeta. destruct (negb (u_check u o)); [discriminate|]. destruct (negb (sc_fitted sc)); [discriminate|]. cbn [type_of dtype_eqb negb].
  destruct (negb (names_eqb _ _)); [discriminate|]. destruct (sc_score sc Xa) as [za|]; [|discriminate]. destruct (sc_score sc Xe) as [ze|]; [|discriminate]. destruct (u_prebin u o ze _) as [splits|] eqn:Ep; [|discriminate].
  destruct (Nat.eqb_spec (length za) (length ya)) as [La|]; [|discriminate]. destruct (Nat.eqb_spec (length ze) (length ye)) as [Le|]; [|discriminate]. cbn [negb andb].
  destruct (tests_loop _ _ _ _) as [t|] eqn:Et; [|discriminate]. destruct (perf_binary _ _ _ _ _) as [p|] eqn:Epf; [|discriminate]. destruct (fit_vars sc Xa Xe) as [v|] eqn:Ev; [|discriminate].
  intros [= <-]. exists za, ze, splits, t, p, v. do 8 (split; [auto|]). reflexivity.
Qed.
Lemma fit_cont_ok u sc o Xa ya Xe ye s s' : fit_mon u sc o Xa (YCont ya) Xe (YCont ye) s = (s', Ok tt) ->
  exists za ze splits p v, sc_score sc Xa = Ok za /\ sc_score sc Xe = Ok ze /\ u_prebin u o ze (YCont ye) = Ok splits /\ length za = length ya /\ length ze = length ye /\
    perf_cont u sc Xa ya Xe ye = Ok p /\ fit_vars sc Xa Xe = Ok v /\
    s' = mkM (Some DContinuous) (Some (TgCont (mean_all ya) (mean_all ye))) (Some (splits, map2 pair (cont_counts splits za) (cont_counts splits ze)))
           (Some (TCont (map (fun i => mkCT (cont_records splits za i) (cont_records splits ze i) (mean_at splits ya za i) (mean_at splits ye ze i)) (bins_of splits))))
           (Some p) (Some splits) (Some (cont_counts splits za, cont_counts splits ze)) (Some v) true.
Proof.
  unfold fit_mon, fit_continuous, finish_fit. cbv zeta. destruct (negb (u_check u o)); [discriminate|]. destruct (negb (sc_fitted sc)); [discriminate|]. cbn [type_of dtype_eqb negb].
  destruct (negb (names_eqb _ _)); [discriminate|]. destruct (sc_score sc Xa) as [za|]; [|discriminate]. destruct (sc_score sc Xe) as [ze|]; [|discriminate]. destruct (u_prebin u o ze _) as [splits|] eqn:Ep; [|discriminate].
  destruct (Nat.eqb_spec (length za) (length ya)) as [La|]; [|discriminate]. destruct (Nat.eqb_spec (length ze) (length ye)) as [Le|]; [|discriminate]. cbn [negb andb].
  destruct (perf_cont _ _ _ _ _ _) as [p|] eqn:Epf; [|discriminate]. destruct (fit_vars sc Xa Xe) as [v|] eqn:Ev; [|discriminate].
  intros [= <-]. exists za, ze, splits, p, v. do 7 (split; [auto|]). reflexivity.
Qed.

(** ** variables *)
Lemma var_loop_spec {F} (sc : scard F) Xa Xe : forall names v, var_loop sc Xa Xe names = Ok v -> map fst v = names /\
  forall nm rows, In (nm, rows) v -> exists ta te, sc_indices sc nm Xa = Ok ta /\ sc_indices sc nm Xe = Ok te /\ te <> [] /\ rows = var_rows ta te.
Proof.
  induction names as [|nm names IH]; intros v H; cbn [var_loop] in H; [injection H as <-; split; [reflexivity|intros ? ? []]|].
  unfold rbind in H. destruct (sc_indices sc nm Xa) as [ta|] eqn:Ea; [|discriminate]. destruct (sc_indices sc nm Xe) as [te|] eqn:Ee; [|discriminate]. destruct te as [|x te]; [discriminate|].
  destruct (var_loop sc Xa Xe names) as [l|]; [|discriminate]. injection H as <-. destruct (IH l eq_refl) as [N R]. split; [cbn; now rewrite N|].
  intros nm' rows [[= <- <-]|H]; [|now apply R]. exists ta, (x :: te). repeat split; auto. discriminate.
Qed.
Lemma fit_vars_spec {F} (sc : scard F) Xa Xe v : fit_vars sc Xa Xe = Ok v -> map fst v = sc_support sc /\ v <> [] /\
  forall nm rows, In (nm, rows) v -> exists ta te, sc_indices sc nm Xa = Ok ta /\ sc_indices sc nm Xe = Ok te /\ te <> [] /\ rows = var_rows ta te.
Proof.
  unfold fit_vars. destruct (sc_support sc) as [|n names] eqn:E; [discriminate|]. intros H. destruct (var_loop_spec sc Xa Xe _ _ H) as [A B]. split; [exact A|]. split; [|exact B]. intros ->. discriminate.
Qed.
Lemma filter_name (v : list (name * list (Z * Z))) nm rows : NoDup (map fst v) -> In (nm, rows) v -> filter (fun e => Z.eqb (fst e) nm) v = [(nm, rows)].
Proof.
  induction v as [|[n r] v IH]; intros ND H; [destruct H|]. inversion ND as [|? ? N1 N2]; subst. cbn [filter fst]. destruct H as [[= -> ->]|H].
  - rewrite Z.eqb_refl. f_equal. clear IH ND. induction v as [|[n' r'] v IH]; [reflexivity|]. cbn [filter fst map In] in *. inversion N2; subst. destruct (Z.eqb_spec n' nm) as [->|]; [exfalso; apply N1; now left|]. apply IH; [intros K; apply N1; now right|assumption].
  - destruct (Z.eqb_spec n nm) as [->|]; [exfalso; apply N1; apply in_map_iff; exists (nm, rows); auto|]. now apply IH.
Qed.
Lemma filter_absent (v : list (name * list (Z * Z))) nm : ~ In nm (map fst v) -> filter (fun e => Z.eqb (fst e) nm) v = [].
Proof.
  induction v as [|[n r] v IH]; intros H; [reflexivity|]. cbn [filter fst map In] in *. destruct (Z.eqb_spec n nm) as [->|]; [exfalso; apply H; now left|]. apply IH. intros K. apply H. now right.
Qed.
