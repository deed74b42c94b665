(** The continuous-target binning table and the training records. *)
From Coq Require Import List ZArith Bool Arith Lia Sorting Reals Lra.
From Verif Require Import Model.Arr Model.Core Model.CP Model.Cont Model.Metrics Model.ContTable
  Spec.CoreSpec Spec.CPSpec Spec.CPFitSpec Spec.ContSpec Spec.MetricsSpec Spec.ContTableSpec
  Proofs.ArrP Proofs.CoreP Proofs.FitP Proofs.CoreFinal Proofs.CPP Proofs.CPC Proofs.CPTable Proofs.CPFinal
  Proofs.ContP Proofs.ContC Proofs.ContFinal Proofs.ContTrend Proofs.MetricsP Proofs.MetricsQ Proofs.ContTableP.
Import ListNotations.
Open Scope R_scope.

(** * Rows and their records *)
Lemma filter_eq {A} (p q : A -> bool) l : (forall r, In r l -> (p r = true <-> q r = true)) -> filter p l = filter q l.
Proof. intros H. apply filter_ext_in. intros a Ha. specialize (H a Ha). destruct (p a), (q a); intuition congruence. Qed.
Lemma k_special_isin sp r : k_special sp r = isin (flat_codes sp) (k_x r).
Proof. destruct sp; reflexivity. Qed.

Lemma nsum_some l : (forall r, In r l -> k_y r <> None) -> nsum (map k_prod l) = Some (zsum (map wtarget l)).
Proof.
  induction l as [|r l IH]; intros H; [reflexivity|]. cbn [map nsum zsum]. unfold k_prod at 1, wtarget at 1, k_target.
  pose proof (H r (or_introl eq_refl)) as Hr. destruct (k_y r) as [y|]; [|congruence]. cbn [option_map].
  rewrite IH by (intros; apply H; now right). reflexivity.
Qed.
Lemma somes_some l : (forall r, In r l -> k_y r <> None) -> has_nan (map k_prod l) = false /\ somes (map k_prod l) = map wtarget l.
Proof.
  induction l as [|r l IH]; intros H; [split; reflexivity|]. cbn [map somes has_nan existsb]. unfold k_prod at 1 3, wtarget at 1, k_target.
  pose proof (H r (or_introl eq_refl)) as Hr. destruct (k_y r) as [y|]; [|congruence]. cbn [option_map orb].
  destruct IH as [I1 I2]; [intros; apply H; now right|]. unfold has_nan in I1. rewrite I1, I2. split; reflexivity.
Qed.
Lemma zeros_some l : (forall r, In r l -> k_y r <> None) ->
  nzeros (map k_prod l) = Z.of_nat (length (filter (fun r => (wtarget r =? 0)%Z) l)).
Proof.
  unfold nzeros. intros H. f_equal. induction l as [|r l IH]; [reflexivity|].
  cbn [map filter]. unfold count_true in *. cbn [filter length].
  specialize (IH (fun x Hx => H x (or_intror Hx))).
  assert (E : match k_prod r with Some a => Z.eqb 0 a | None => false end = (wtarget r =? 0)%Z).
  { unfold k_prod, wtarget, k_target. pose proof (H r (or_introl eq_refl)) as Hr. destruct (k_y r) as [y|]; [|congruence]. cbn [option_map]. apply Z.eqb_sym. }
  rewrite E. destruct (wtarget r =? 0)%Z; cbn [length]; [f_equal|]; exact IH.
Qed.

(** what a row reports of its records, apart from the deviation *)
Record reports (row : trow) (l : list krec) : Prop := {
  rp_n : r_n row = zsum (map k_w l);
  rp_sum : r_sum row = Some (zsum (map wtarget l));
  rp_zero : r_zero row = Z.of_nat (length (filter (fun r => (wtarget r =? 0)%Z) l)) }.
Definition reports_range (row : trow) (l : list krec) : Prop :=
  (l = [] -> r_min row = ENaN /\ r_max row = ENaN) /\
  (l <> [] -> (exists m, r_min row = Fin m /\ is_min m (map wtarget l)) /\ (exists m, r_max row = Fin m /\ is_max m (map wtarget l))).
Lemma missing_reports old l : (forall r, In r l -> k_y r <> None) ->
  reports (missing_row old l) l /\ (old = fresh -> reports_range (missing_row old l) l).
Proof.
  intros H. destruct (somes_some l H) as [N1 N2]. split; [constructor; cbn [missing_row r_n r_sum r_zero]|].
  - reflexivity.
  - now apply nsum_some.
  - now apply zeros_some.
  - intros ->. split; [intros ->; split; reflexivity|]. intros Hne. unfold missing_row. cbn [r_min r_max].
    assert (Hw : map wtarget l <> []) by (destruct l; [congruence|discriminate]).
    unfold nmin, nmax. rewrite N1, N2. destruct l as [|r l]; [congruence|]. split; eexists; (split; [reflexivity|]); [now apply np_min_spec|now apply np_max_spec].
Qed.
Lemma dict_reports l : (forall r, In r l -> k_y r <> None) -> reports (dict_row l) l.
Proof.
  intros H. constructor; cbn [dict_row r_n r_sum r_zero]; [reflexivity|now apply nsum_some|now apply zeros_some].
Qed.

Section Fit.
Variables (old : stale) (solver : list cstat -> list bool) (sp : special) (fixed : option (list bool)) (user : option (list Z))
  (splits0 : list Z) (rs : list krec) (f : cfitted) (p : nat -> krec -> bool).
Hypothesis Hs : nondecreasing splits0.
Hypothesis Hok : c_solver_ok solver.
Hypothesis Hf : fit_cont old solver sp fixed user splits0 rs = Some (Ok f).
Hypothesis Hy : forall r, In r rs -> k_y r <> None.
Hypothesis Hnan : ~ In XNaN (flat_codes sp).
Hypothesis Hp : classifies p (cf_splits f) sp.
Let n := S (length (cf_splits f)).

Lemma ct_nondecr : nondecreasing (cf_splits f).
Proof. exact (proj1 (cont_rows _ _ _ _ _ _ _ _ Hs Hok Hf)). Qed.

Lemma clean_row k : (k < n)%nat -> exists row, nth_error (cf_rows f) k = Some row /\ reports row (filter (p k) rs) /\ reports_range row (filter (p k) rs).
Proof.
  intros Hk. destruct (cont_rows _ _ _ _ _ _ _ _ Hs Hok Hf) as [_ HK].
  set (q := fun r => p k r && match k_y r with Some _ => true | None => false end).
  assert (Hq : forall r, q r = true <-> in_row sp (cf_splits f) k r).
  { intros r. unfold q. rewrite andb_true_iff, (Hp k r). unfold in_row. destruct (k_x r) as [|z]; cbn [row_of].
    - split; [intros [E _]; unfold n in Hk; lia|]. intros (z & y & E & _). discriminate.
    - split.
      + intros [[(i & Hi & E)|[Hc Hb]] Hyr]; [unfold n in Hk; lia|]. destruct (k_y r) as [y|]; [|discriminate]. exists z, y. auto.
      + intros (z' & y & E & Ey & Hc & Hb). injection E as <-. rewrite Ey. auto. }
  destruct (HK k q ltac:(unfold n in Hk; lia) Hq) as (row & E & Hne & [R1 R2 R3 R4 R5 _]). exists row. split; [exact E|].
  assert (Ef : filter q rs = filter (p k) rs).
  { apply filter_eq. intros r Hr. unfold q. specialize (Hy r Hr). destruct (k_y r); [|congruence]. rewrite andb_true_r. tauto. }
  rewrite Ef in *. split; [constructor; assumption|]. split; [congruence|]. auto.
Qed.
Lemma clean_length : length (c_clean_rows f) = n.
Proof.
  unfold c_clean_rows. rewrite firstn_length. fold n.
  destruct (clean_row (length (cf_splits f)) ltac:(unfold n; lia)) as (row & E & _).
  apply nth_error_Some_lt in E || (assert (nth_error (cf_rows f) (length (cf_splits f)) <> None) as E' by congruence; apply nth_error_Some in E').
  unfold n. lia.
Qed.
Lemma filter_missing : filter (p (n + n_special sp)) rs = filter k_missing rs.
Proof.
  apply filter_eq. intros r Hr. rewrite (Hp _ r). unfold k_missing. specialize (Hy r Hr).
  assert (E : match k_y r with None => true | Some _ => false end = false) by (destruct (k_y r); congruence). rewrite E, orb_false_r.
  destruct (k_x r) as [|z]; cbn [row_of x_isnull]; [tauto|]. split; [|discriminate].
  intros [(j & Hj & E2)|[_ Hb]]; [apply special_index_lt in Hj; unfold n in E2; lia|]. apply in_bin_i_lt in Hb. unfold n in Hb. lia.
Qed.
Lemma filter_special i : (i < n_special sp)%nat -> forall q, (forall r, In r rs -> (q r = true <-> k_special sp r = true /\ special_index sp i (k_x r))) ->
  filter (p (n + i)) rs = filter q rs.
Proof.
  intros Hi q Hq. apply filter_eq. intros r Hr. rewrite (Hp _ r), (Hq r Hr), k_special_isin. destruct (k_x r) as [|z] eqn:Ex; cbn [row_of].
  - split; [intros E; unfold n in E; lia|]. intros [H _]. apply isin_In in H. contradiction.
  - split.
    + intros [(j & Hj & E)|[Hc Hb]].
      * assert (j = i) by (unfold n in E; lia). subst j. split; [eapply special_index_in; exact Hj|exact Hj].
      * apply in_bin_i_lt in Hb. unfold n in Hb. lia.
    + intros [_ H]. left. eauto.
Qed.
Lemma filter_filter {A} (a b : A -> bool) l : filter a (filter b l) = filter (fun x => b x && a x) l.
Proof. induction l as [|x l IH]; [reflexivity|]. cbn [filter]. destruct (b x); cbn [filter andb]; [|exact IH]. destruct (a x); now rewrite IH. Qed.
Lemma in_filter_y (q : krec -> bool) r : In r (filter q rs) -> k_y r <> None.
Proof. intros H. apply filter_In in H. apply Hy, H. Qed.

Lemma all_rows : length (cf_rows f) = n_rows (cf_splits f) sp /\
  forall k, (k < n_rows (cf_splits f) sp)%nat -> exists row, nth_error (cf_rows f) k = Some row /\ reports row (filter (p k) rs) /\
    ((forall d, sp <> SpDict d) -> old = fresh -> reports_range row (filter (p k) rs)).
Proof.
  destruct (c_rows_shape _ _ _ _ _ _ _ _ Hs Hok Hf) as (srows & Hsr & Hrows). pose proof clean_length as Hcl.
  assert (HS : length srows = n_special sp /\ forall i, (i < n_special sp)%nat -> exists row, nth_error srows i = Some row /\
     reports row (filter (p (n + i)) rs) /\ ((forall d, sp <> SpDict d) -> reports_range row (filter (p (n + i)) rs))).
  { destruct sp as [|l|d] eqn:Esp; cbn [special_rows] in Hsr.
    - injection Hsr as <-. split; [reflexivity|]. cbn [n_special]. intros i Hi. assert (i = 0%nat) by lia. subst i. eexists. split; [reflexivity|].
      rewrite <- Esp in Hp, Hnan.
      rewrite (filter_special 0) with (q := k_special SpNone); [|rewrite Esp; cbn; lia|intros r _; rewrite Esp; cbn; intuition discriminate].
      unfold special_row. destruct (missing_reports fresh (filter (k_special SpNone) rs) (in_filter_y _)) as [A B]. split; [exact A|]. intros _. now apply B.
    - injection Hsr as <-. split; [reflexivity|]. cbn [n_special]. intros i Hi. assert (i = 0%nat) by lia. subst i. eexists. split; [reflexivity|].
      rewrite <- Esp in Hp, Hnan.
      rewrite (filter_special 0) with (q := k_special (SpList l)); [|rewrite Esp; cbn; lia|].
      2:{ intros r _. rewrite Esp. cbn [special_index k_special flat_codes]. rewrite isin_In. tauto. }
      unfold special_row. destruct (missing_reports fresh (filter (k_special (SpList l)) rs) (in_filter_y _)) as [A B]. split; [exact A|]. intros _. now apply B.
    - assert (E : srows = map (fun kv => dict_row (filter (fun r => isin (snd kv) (k_x r)) (filter (k_special (SpDict d)) rs))) d).
      { destruct (filter (k_special (SpDict d)) rs) as [|]; [destruct d; [|discriminate]|]; congruence. }
      rewrite E, map_length. cbn [n_special]. split; [reflexivity|]. intros i Hi.
      destruct (nth_error d i) as [kv|] eqn:Ei; [|apply nth_error_None in Ei; lia]. rewrite nth_error_map, Ei. cbn [option_map]. eexists. split; [reflexivity|].
      rewrite <- Esp in Hp, Hnan.
      rewrite (filter_special i) with (q := fun r => k_special sp r && isin (snd kv) (k_x r)); [|rewrite Esp; cbn; exact Hi|].
      2:{ intros r _. rewrite andb_true_iff, isin_In, Esp. cbn [special_index]. split; intros [A B]; (split; [exact A|]); [eauto|].
          destruct B as (kv' & B1 & B2). rewrite Ei in B1. injection B1 as <-. exact B2. }
      rewrite filter_filter, <- Esp. split; [apply dict_reports; intros r Hr; exact (in_filter_y _ r Hr)|].
      intros Hd. destruct (Hd d Esp). }
  destruct HS as [HS1 HS2]. split.
  - rewrite Hrows, !app_length, Hcl, HS1. unfold n_rows, n. cbn [length]. lia.
  - intros k Hk. unfold n_rows in Hk. fold n in Hk. destruct (Nat.lt_ge_cases k n) as [L|L].
    + destruct (clean_row k L) as (row & A & B & C). eauto.
    + destruct (Nat.lt_ge_cases k (n + n_special sp)) as [L2|L2].
      * destruct (HS2 (k - n)%nat ltac:(lia)) as (row & A & B & C). exists row.
        replace (n + (k - n))%nat with k in * by lia. split; [|split; [exact B|intros Hd _; now apply C]].
        rewrite Hrows, nth_error_app2, Hcl, nth_error_app1 by lia. exact A.
      * assert (k = n + n_special sp)%nat by lia. subst k. exists (missing_row old (filter k_missing rs)). split.
        -- rewrite Hrows, nth_error_app2, Hcl by lia. rewrite nth_error_app2 by lia. replace (n + n_special sp - n - length srows)%nat with 0%nat by lia. reflexivity.
        -- rewrite filter_missing. destruct (missing_reports old (filter k_missing rs) (in_filter_y _)) as [A B]. split; [exact A|]. intros _. exact B.
Qed.
End Fit.

(** * Every record is in exactly one row *)
Lemma row_exists splits sp r : nondecreasing splits -> exists k, (k < n_rows splits sp)%nat /\ row_of splits sp (k_x r) k.
Proof.
  intros Hn. unfold n_rows. destruct (k_x r) as [|z].
  - exists (S (length splits) + n_special sp)%nat. split; [lia|reflexivity].
  - destruct (isin (flat_codes sp) (XNum z)) eqn:E.
    + destruct (special_index_ex _ _ E) as [i Hi]. exists (S (length splits) + i)%nat. pose proof (special_index_lt _ _ _ Hi). split; [lia|]. left. eauto.
    + exists (digitize splits z). pose proof (digitize_in_bin splits z Hn) as Hb. pose proof (in_bin_i_lt _ _ _ Hb). split; [lia|].
      right. split; [|exact Hb]. intros Hx. apply isin_In in Hx. congruence.
Qed.
Lemma special_index_unique sp i j x : sp_disjoint sp -> special_index sp i x -> special_index sp j x -> i = j.
Proof.
  destruct sp as [|l|d]; cbn; [tauto|lia|]. intros H (a & A1 & A2) (b & B1 & B2). exact (H i j a b x A1 B1 A2 B2).
Qed.
Lemma row_unique splits sp x k k' : nondecreasing splits -> sp_disjoint sp -> row_of splits sp x k -> row_of splits sp x k' -> k = k'.
Proof.
  intros Hn Hd. destruct x as [|z]; cbn [row_of]; [lia|].
  intros [(i & Hi & ->)|[Hc Hb]] [(j & Hj & ->)|[Hc' Hb']].
  - f_equal. eapply special_index_unique; eassumption.
  - destruct Hc'. apply isin_In. eapply special_index_in; eassumption.
  - destruct Hc. apply isin_In. eapply special_index_in; eassumption.
  - rewrite <- (in_bin_unique _ _ _ _ Hn Hb Hb'). reflexivity.
Qed.
Lemma indicator_sum (p : nat -> bool) (c : R) ks k : NoDup ks -> In k ks -> p k = true -> (forall k', p k' = true -> k' = k) ->
  rsum (map (fun k' => if p k' then c else 0) ks) = c.
Proof.
  intros Hd Hi Hpk Hu. induction ks as [|a ks IH]; [destruct Hi|]. inversion Hd as [|? ? Hna Hd']; subst. cbn [map rsum].
  destruct (Nat.eq_dec a k) as [->|Ne].
  - rewrite Hpk. rewrite rsum_const0; [ring|]. intros x Hx. destruct (p x) eqn:E; [|reflexivity]. apply Hu in E. congruence.
  - destruct Hi as [->|Hi]; [congruence|]. rewrite IH by assumption. destruct (p a) eqn:E; [apply Hu in E; congruence|ring].
Qed.
Lemma partition_sum (F : krec -> R) (p : nat -> krec -> bool) ks rs : NoDup ks ->
  (forall r, In r rs -> exists k, In k ks /\ p k r = true /\ forall k', p k' r = true -> k' = k) ->
  rsum (map (fun k => rsum (map F (filter (p k) rs))) ks) = rsum (map F rs).
Proof.
  intros Hd. induction rs as [|r rs IH]; intros H; cbn [filter map rsum].
  - apply rsum_const0. reflexivity.
  - rewrite <- IH by (intros x Hx; apply H; now right). destruct (H r (or_introl eq_refl)) as (k & K1 & K2 & K3).
    rewrite <- (indicator_sum (fun k' => p k' r) (F r) ks k Hd K1 K2 K3) at 1. rewrite <- rsum_plus. apply rsum_ext. intros k' _.
    destruct (p k' r); cbn [map rsum]; ring.
Qed.
Lemma rsum_rows {A} (h : A -> R) (h' : nat -> R) l : (forall k a, nth_error l k = Some a -> h a = h' k) ->
  rsum (map h l) = rsum (map h' (seq 0 (length l))).
Proof.
  revert h'. induction l as [|a l IH]; intros h' H; [reflexivity|]. cbn [length seq map rsum]. rewrite (H 0%nat a eq_refl). f_equal.
  rewrite <- seq_shift, map_map. apply (IH (fun k => h' (S k))). intros k b Hb. apply (H (S k) b Hb).
Qed.

(** * The table of a fit *)
Section Table.
Variables (old : stale) (solver : list cstat -> list bool) (sp : special) (fixed : option (list bool)) (user : option (list Z))
  (splits0 : list Z) (rs : list krec) (f : cfitted) (p : nat -> krec -> bool).
Hypothesis Hs : nondecreasing splits0.
Hypothesis Hok : c_solver_ok solver.
Hypothesis Hf : fit_cont old solver sp fixed user splits0 rs = Some (Ok f).
Hypothesis Ht : targets_ok rs.
Hypothesis Hnan : ~ In XNaN (flat_codes sp).
Hypothesis Hd : sp_disjoint sp.
Hypothesis Hp : classifies p (cf_splits f) sp.
Let rows := cf_rows f.
Let g k := filter (p k) rs.
Let m := n_rows (cf_splits f) sp.

Lemma t_y r : In r rs -> k_y r <> None.
Proof. intros Hr. apply (proj1 Ht r Hr). Qed.
Lemma t_rows : length rows = m /\ forall k, (k < m)%nat -> exists row, nth_error rows k = Some row /\ reports row (g k) /\
    ((forall d, sp <> SpDict d) -> old = fresh -> reports_range row (g k)).
Proof. exact (all_rows _ _ _ _ _ _ _ _ _ Hs Hok Hf t_y Hnan Hp). Qed.
Lemma t_row k row : nth_error rows k = Some row -> reports row (g k).
Proof.
  intros E. destruct t_rows as [L H]. assert (K : (k < m)%nat) by (rewrite <- L; apply nth_error_Some; congruence).
  destruct (H k K) as (row' & E' & R & _). congruence.
Qed.
Lemma t_part r : In r rs -> exists k, In k (seq 0 m) /\ p k r = true /\ forall k', p k' r = true -> k' = k.
Proof.
  intros Hr. pose proof (ct_nondecr _ _ _ _ _ _ _ _ Hs Hok Hf) as Hn.
  destruct (row_exists (cf_splits f) sp r Hn) as (k & K1 & K2). exists k. split; [apply in_seq; unfold m; lia|].
  split; [now apply Hp|]. intros k' K'. apply Hp in K'. eapply row_unique; eassumption.
Qed.
Lemma t_sum F : rsum (map (fun k => rsum (map F (g k))) (seq 0 m)) = rsum (map F rs).
Proof. apply partition_sum; [apply seq_NoDup|exact t_part]. Qed.
Lemma zsum_w_nonneg l : (forall r, In r l -> (0 <= k_w r)%Z) -> (0 <= zsum (map k_w l))%Z.
Proof. intros H. apply zsum_nonneg. intros c Hc. apply in_map_iff in Hc as (r & <- & Hr). now apply H. Qed.
Lemma zero_weights l : (forall r, In r l -> (0 <= k_w r)%Z) -> zsum (map k_w l) = 0%Z -> zsum (map wtarget l) = 0%Z.
Proof.
  induction l as [|r l IH]; intros H E; [reflexivity|]. cbn [map zsum] in *.
  pose proof (zsum_w_nonneg l (fun x Hx => H x (or_intror Hx))). pose proof (H r (or_introl eq_refl)).
  rewrite (IH (fun x Hx => H x (or_intror Hx))) by lia. unfold wtarget. replace (k_w r) with 0%Z by lia. ring.
Qed.
Lemma g_w k r : In r (g k) -> (0 <= k_w r)%Z.
Proof. intros H. apply filter_In in H. apply (proj1 Ht r), H. Qed.
Lemma t_ok : rows_ok rows.
Proof.
  intros row Hin. apply In_nth_error in Hin as [k E]. destruct (t_row k row E) as [R1 R2 _]. rewrite R1. split.
  - apply zsum_w_nonneg. intros r Hr. now apply (g_w k).
  - eexists. split; [exact R2|]. apply zero_weights. intros r Hr. now apply (g_w k).
Qed.
Lemma weight_rsum l : weight l = rsum (map (fun r => IZR (k_w r)) l).
Proof. unfold weight. rewrite IZR_zsum, map_map. reflexivity. Qed.
Lemma wtotal_rsum l : wtotal l = rsum (map (fun r => IZR (wtarget r)) l).
Proof. unfold wtotal. rewrite IZR_zsum, map_map. reflexivity. Qed.
Lemma t_records : ct_records rows = weight rs.
Proof.
  rewrite ok_records, weight_rsum, <- t_sum. rewrite (rsum_rows rn (fun k => weight (g k))).
  - rewrite (proj1 t_rows). apply rsum_ext. intros k _. apply weight_rsum.
  - intros k row E. destruct (t_row k row E) as [R1 _ _]. unfold rn. now rewrite R1.
Qed.
Lemma t_total : ct_sum rows = wtotal rs.
Proof.
  rewrite ok_sum by exact t_ok. rewrite wtotal_rsum, <- t_sum. rewrite (rsum_rows rs_ (fun k => wtotal (g k))).
  - rewrite (proj1 t_rows). apply rsum_ext. intros k _. apply wtotal_rsum.
  - intros k row E. destruct (t_row k row E) as [_ R2 _]. unfold rs_, sumz. now rewrite R2.
Qed.
Lemma t_mean : ct_mean rows = wmean rs.
Proof. unfold ct_mean, wmean. rewrite t_records, t_total. destruct (Req_EM_T (weight rs) 0) as [E|E]; [|reflexivity]. destruct Ht. lra. Qed.
Lemma t_pos : 0 < ct_records rows.
Proof. rewrite t_records. apply Ht. Qed.
Lemma t_umean k row : nth_error rows k = Some row -> umean row = wmean (g k).
Proof.
  intros E. destruct (t_row k row E) as [R1 R2 _]. unfold umean, wmean, rs_, rn, sumz, weight, wtotal. rewrite R1, R2.
  pose proof (zsum_w_nonneg (g k) (g_w k)) as P. destruct (Z.ltb_spec 0 (zsum (map k_w (g k)))) as [L|L].
  - destruct (Req_EM_T _ _) as [Z|Z]; [apply eq_IZR in Z; lia|reflexivity].
  - destruct (Req_EM_T _ _) as [Z|Z]; [reflexivity|]. destruct Z. f_equal. lia.
Qed.
Lemma t_columns k row : nth_error rows k = Some row ->
  IZR (r_n row) = weight (g k) /\ ct_share rows row = weight (g k) / weight rs /\
  option_map IZR (r_sum row) = Some (wtotal (g k)) /\ ct_row_mean row = Some (wmean (g k)) /\
  r_zero row = Z.of_nat (length (filter (fun r => (wtarget r =? 0)%Z) (g k))) /\
  ct_woe rows row = Some (wmean (g k) - wmean rs) /\
  ct_iv rows row = Some (Rabs (wmean (g k) - wmean rs) * (weight (g k) / weight rs)).
Proof.
  intros E. destruct (t_row k row E) as [R1 R2 R3]. assert (Hin : In row rows) by (eapply nth_error_In; exact E).
  assert (EM : ct_row_mean row = Some (wmean (g k))) by (rewrite <- (t_umean k row E); apply rows_ok_mean, t_ok, Hin).
  assert (EN : IZR (r_n row) = weight (g k)) by (unfold weight; now rewrite R1).
  assert (ES : ct_share rows row = weight (g k) / weight rs) by (unfold ct_share; now rewrite t_records, EN).
  assert (EW : ct_woe rows row = Some (wmean (g k) - wmean rs)) by (unfold ct_woe; now rewrite EM, t_mean).
  do 5 (split; [first [assumption|rewrite R2; reflexivity]|]). split; [assumption|]. unfold ct_iv. now rewrite EW, ES.
Qed.
Lemma t_totals : ct_total_iv rows = Some (doc_iv p m rs) /\ ct_total_woe rows = Some (doc_woe p m rs) /\
  ct_total_zeros rows = Z.of_nat (length (filter (fun r => (wtarget r =? 0)%Z) rs)).
Proof.
  destruct (total_iv_eq rows t_ok t_pos) as (A & _ & B). unfold doc_iv, doc_woe. rewrite !rtotal_rsum. split; [|split].
  - rewrite A. f_equal. rewrite (rsum_rows _ (fun k => Rabs (wmean (g k) - wmean rs) * (weight (g k) / weight rs))); [now rewrite (proj1 t_rows)|].
    intros k row E. rewrite (t_umean k row E), t_mean, t_records. destruct (t_row k row E) as [R1 _ _]. unfold rn, weight at 1. now rewrite R1.
  - rewrite B. f_equal. rewrite (rsum_rows _ (fun k => Rabs (wmean (g k) - wmean rs))); [now rewrite (proj1 t_rows)|].
    intros k row E. now rewrite (t_umean k row E), t_mean.
  - apply eq_IZR. unfold ct_total_zeros. rewrite IZR_zsum, map_map, <- INR_IZR_INZ.
    set (F := fun r => if (wtarget r =? 0)%Z then 1 else 0).
    assert (EF : forall l, INR (length (filter (fun r => (wtarget r =? 0)%Z) l)) = rsum (map F l)).
    { induction l as [|r l IH]; [reflexivity|]. cbn [filter map rsum]. unfold F at 1. destruct (wtarget r =? 0)%Z; cbn [length]; rewrite ?S_INR, IH; ring. }
    rewrite EF, <- t_sum. rewrite (rsum_rows _ (fun k => rsum (map F (g k)))); [now rewrite (proj1 t_rows)|].
    intros k row E. destruct (t_row k row E) as [_ _ R3]. rewrite R3, <- INR_IZR_INZ. apply EF.
Qed.
Lemma wmean_dev l mu : rsum (map (fun r => IZR (k_w r) * (IZR (k_target r) - mu)) l) = wtotal l - mu * weight l.
Proof.
  rewrite wtotal_rsum, weight_rsum. induction l as [|r l IH]; cbn [map rsum]; [ring|]. rewrite IH. unfold wtarget at 2. rewrite mult_IZR. ring.
Qed.
Lemma t_iv_bounds : 0 <= doc_iv p m rs <= mean_abs_dev rs /\
  (doc_iv p m rs = 0 <-> forall k, (k < m)%nat -> 0 < weight (g k) -> wmean (g k) = wmean rs).
Proof.
  destruct (total_iv_eq rows t_ok t_pos) as (_ & A & _). destruct t_totals as (B & _ & _). rewrite B in A. injection A as A.
  assert (HW : 0 < weight rs) by apply Ht.
  assert (E1 : rsum (map (fun r => Rabs (rs_ r - ct_mean rows * rn r)) rows) =
               rsum (map (fun k => Rabs (rsum (map (fun r => IZR (k_w r) * (IZR (k_target r) - wmean rs)) (g k)))) (seq 0 m))).
  { rewrite (rsum_rows _ (fun k => Rabs (rsum (map (fun r => IZR (k_w r) * (IZR (k_target r) - wmean rs)) (g k))))); [now rewrite (proj1 t_rows)|].
    intros k row E. destruct (t_row k row E) as [R1 R2 _]. rewrite wmean_dev, t_mean. unfold rs_, rn, sumz, wtotal, weight. now rewrite R1, R2. }
  assert (E2 : rsum (map (fun k => Rabs (rsum (map (fun r => IZR (k_w r) * (IZR (k_target r) - wmean rs)) (g k)))) (seq 0 m)) <=
               rsum (map (fun r => IZR (k_w r) * Rabs (IZR (k_target r) - wmean rs)) rs)).
  { rewrite <- t_sum. apply rsum_le. intros k _. eapply Rle_trans; [apply Rabs_rsum|]. apply Req_le, rsum_ext. intros r Hr.
    rewrite Rabs_mult, (Rabs_pos_eq (IZR (k_w r))); [reflexivity|]. apply IZR_le. now apply (g_w k). }
  assert (E3 : 0 <= rsum (map (fun k => Rabs (rsum (map (fun r => IZR (k_w r) * (IZR (k_target r) - wmean rs)) (g k)))) (seq 0 m))).
  { apply rsum_nonneg. intros x Hx. apply in_map_iff in Hx as (k & <- & _). apply Rabs_pos. }
  rewrite E1, t_records in A. rewrite A. split; [split|].
  - apply Rmult_le_pos; [exact E3|]. left. now apply Rinv_0_lt_compat.
  - apply rsum_div_le; [exact HW|exact E2].
  - rewrite <- A. unfold doc_iv. change rtotal with rsum.
    assert (P : forall k, 0 <= weight (g k)) by (intros k; unfold weight; apply IZR_le, zsum_w_nonneg; intros r Hr; now apply (g_w k)).
    fold g. rewrite rsum_zero_iff.
    + split.
      * intros H k Hk Hw. assert (Z : Rabs (wmean (g k) - wmean rs) * (weight (g k) / weight rs) = 0).
        { apply H. apply in_map_iff. exists k. split; [reflexivity|]. apply in_seq. lia. }
        assert (0 < weight (g k) / weight rs) by (apply Rmult_lt_0_compat; [assumption|now apply Rinv_0_lt_compat]).
        apply Rmult_integral in Z as [Z|Z]; [|lra]. destruct (Req_dec (wmean (g k) - wmean rs) 0) as [Q|Q]; [lra|]. apply Rabs_pos_lt in Q. lra.
      * intros H x Hx. apply in_map_iff in Hx as (k & <- & Hk). apply in_seq in Hk. fold (g k).
        destruct (Rle_lt_or_eq_dec 0 (weight (g k)) (P k)) as [L|L].
        -- rewrite (H k ltac:(lia) L). unfold Rminus. rewrite Rplus_opp_r, Rabs_R0. ring.
        -- rewrite <- L. unfold Rdiv. ring.
    + intros x Hx. apply in_map_iff in Hx as (k & <- & _). apply Rmult_le_pos; [apply Rabs_pos|]. apply Rmult_le_pos; [apply P|]. left. now apply Rinv_0_lt_compat.
Qed.

(** minimum and maximum of the Totals row *)
Lemma nan_fold_min l : (forall e, In e l -> e = ENaN \/ exists z, e = Fin z) ->
  (nan_fold emin l = ENaN /\ forall e, In e l -> e = ENaN) \/
  exists z, nan_fold emin l = Fin z /\ In (Fin z) l /\ forall y, In (Fin y) l -> (z <= y)%Z.
Proof.
  induction l as [|e l IH]; intros H; [left; split; [reflexivity|intros ? []]|]. cbn [nan_fold].
  destruct (IH (fun x Hx => H x (or_intror Hx))) as [[I1 I2]|(z & I1 & I2 & I3)]; destruct (H e (or_introl eq_refl)) as [-> |[y ->]]; cbn [is_nan]; rewrite ?I1.
  - left. split; [reflexivity|]. intros x [<-|Hx]; [reflexivity|now apply I2].
  - right. exists y. split; [reflexivity|]. split; [now left|]. intros x [E|Hx]; [injection E as ->; lia|]. apply I2 in Hx. discriminate.
  - right. exists z. split; [reflexivity|]. split; [now right|]. intros x [E|Hx]; [discriminate|now apply I3].
  - right. cbn [emin]. exists (Z.min y z). split; [reflexivity|]. split.
    + destruct (Z.min_spec y z) as [[_ ->]|[_ ->]]; [now left|now right].
    + intros x [E|Hx]; [injection E as ->; lia|]. apply I3 in Hx. lia.
Qed.
Lemma nan_fold_max l : (forall e, In e l -> e = ENaN \/ exists z, e = Fin z) ->
  (nan_fold emax l = ENaN /\ forall e, In e l -> e = ENaN) \/
  exists z, nan_fold emax l = Fin z /\ In (Fin z) l /\ forall y, In (Fin y) l -> (y <= z)%Z.
Proof.
  induction l as [|e l IH]; intros H; [left; split; [reflexivity|intros ? []]|]. cbn [nan_fold].
  destruct (IH (fun x Hx => H x (or_intror Hx))) as [[I1 I2]|(z & I1 & I2 & I3)]; destruct (H e (or_introl eq_refl)) as [-> |[y ->]]; cbn [is_nan]; rewrite ?I1.
  - left. split; [reflexivity|]. intros x [<-|Hx]; [reflexivity|now apply I2].
  - right. exists y. split; [reflexivity|]. split; [now left|]. intros x [E|Hx]; [injection E as ->; lia|]. apply I2 in Hx. discriminate.
  - right. exists z. split; [reflexivity|]. split; [now right|]. intros x [E|Hx]; [discriminate|now apply I3].
  - right. cbn [emax]. exists (Z.max y z). split; [reflexivity|]. split.
    + destruct (Z.max_spec y z) as [[_ ->]|[_ ->]]; [now right|now left].
    + intros x [E|Hx]; [injection E as ->; lia|]. apply I3 in Hx. lia.
Qed.
Lemma t_range : (forall d, sp <> SpDict d) -> old = fresh ->
  (exists z, ct_total_min rows = Fin z /\ is_min z (map wtarget rs)) /\ (exists z, ct_total_max rows = Fin z /\ is_max z (map wtarget rs)).
Proof.
  intros Hnd Hold. destruct t_rows as [L H].
  assert (R : forall k row, nth_error rows k = Some row -> reports_range row (g k)).
  { intros k row E. assert (K : (k < m)%nat) by (rewrite <- L; apply nth_error_Some; congruence). destruct (H k K) as (row' & E' & _ & R). rewrite E in E'. injection E' as <-. now apply R. }
  assert (Hne : rs <> []). { intros ->. destruct Ht as [_ W]. unfold weight in W. cbn in W. lra. }
  assert (Gin : forall k v, In v (map wtarget (g k)) -> In v (map wtarget rs)).
  { intros k v Hv. apply in_map_iff in Hv as (r & <- & Hr). apply in_map. now apply filter_In in Hr. }
  assert (Find : forall v, In v (map wtarget rs) -> exists k row, nth_error rows k = Some row /\ In v (map wtarget (g k))).
  { intros v Hv. apply in_map_iff in Hv as (r & <- & Hr). destruct (t_part r Hr) as (k & K1 & K2 & _). apply in_seq in K1.
    destruct (H k ltac:(lia)) as (row & E & _). exists k, row. split; [exact E|]. apply in_map. now apply filter_In. }
  assert (Shape : forall row, In row rows -> (r_min row = ENaN \/ exists z, r_min row = Fin z) /\ (r_max row = ENaN \/ exists z, r_max row = Fin z)).
  { intros row Hin. apply In_nth_error in Hin as [k E]. destruct (R k row E) as [R0 R1]. destruct (g k) as [|r l]; [destruct (R0 eq_refl); auto|].
    destruct (R1 ltac:(discriminate)) as [(a & A & _) (b & B & _)]. split; right; eauto. }
  assert (Hr0 : exists r0, In r0 rs) by (destruct rs as [|r0 rest]; [congruence|exists r0; now left]). destruct Hr0 as [r0 Hr0].
  destruct (Find (wtarget r0) (in_map wtarget _ _ Hr0)) as (k0 & row0 & E0 & H0). split.
  - destruct (nan_fold_min (map r_min rows)) as [[_ I2]|(z & I1 & I2 & I3)].
    + intros e He. apply in_map_iff in He as (row & <- & Hr). apply Shape, Hr.
    + exfalso. destruct (R k0 row0 E0) as [_ R1]. destruct R1 as [(a & A & _) _]; [intros Z; rewrite Z in H0; destruct H0|].
      specialize (I2 (r_min row0) (in_map r_min _ _ (nth_error_In _ _ E0))). congruence.
    + exists z. split; [exact I1|]. split.
      * apply in_map_iff in I2 as (row & A & Hin). apply In_nth_error in Hin as [k E]. destruct (R k row E) as [R0 R1].
        destruct (g k) as [|r l] eqn:Eg; [destruct (R0 eq_refl); congruence|]. destruct (R1 ltac:(discriminate)) as [(a & B & C) _]. rewrite A in B. injection B as ->.
        apply (Gin k). rewrite Eg. apply C.
      * intros a Ha. destruct (Find a Ha) as (k & row & E & Hk). destruct (R k row E) as [_ R1]. destruct R1 as [(b & B & C) _]; [intros Z; rewrite Z in Hk; destruct Hk|].
        assert (z <= b)%Z by (apply I3; rewrite <- B; apply in_map, (nth_error_In _ _ E)). pose proof (proj2 C a Hk). lia.
  - destruct (nan_fold_max (map r_max rows)) as [[_ I2]|(z & I1 & I2 & I3)].
    + intros e He. apply in_map_iff in He as (row & <- & Hr). apply Shape, Hr.
    + exfalso. destruct (R k0 row0 E0) as [_ R1]. destruct R1 as [_ (a & A & _)]; [intros Z; rewrite Z in H0; destruct H0|].
      specialize (I2 (r_max row0) (in_map r_max _ _ (nth_error_In _ _ E0))). congruence.
    + exists z. split; [exact I1|]. split.
      * apply in_map_iff in I2 as (row & A & Hin). apply In_nth_error in Hin as [k E]. destruct (R k row E) as [R0 R1].
        destruct (g k) as [|r l] eqn:Eg; [destruct (R0 eq_refl); congruence|]. destruct (R1 ltac:(discriminate)) as [_ (a & B & C)]. rewrite A in B. injection B as ->.
        apply (Gin k). rewrite Eg. apply C.
      * intros a Ha. destruct (Find a Ha) as (k & row & E & Hk). destruct (R k row E) as [_ R1]. destruct R1 as [_ (b & B & C)]; [intros Z; rewrite Z in Hk; destruct Hk|].
        assert (b <= z)%Z by (apply I3; rewrite <- B; apply in_map, (nth_error_In _ _ E)). pose proof (proj2 C a Hk). lia.
Qed.
End Table.
