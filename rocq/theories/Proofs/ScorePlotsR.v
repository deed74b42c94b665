(** The figures for scored data: explicit points. *)
From Coq Require Import List ZArith QArith Qabs Bool Arith Lia Sorting Permutation Lqa.
From Verif Require Import Model.Arr Model.ScorePlots Spec.ScorePlotsSpec Proofs.ArrP Proofs.ScorePlotsP Proofs.ScorePlotsQ.
Import ListNotations.
Open Scope nat_scope.

Definition shown_pt (t : Q * Q) : Q * option Q := (fst t, Some (snd t)).
Lemma map_fst_combine {A B} (a : list A) (b : list B) : length a = length b -> map fst (combine a b) = a.
Proof. revert b. induction a as [|x a IH]; intros [|z b] L; try discriminate; [reflexivity|]. cbn. f_equal. apply IH. cbn in L. lia. Qed.
Lemma zsum_y y p : scored y p -> zsum y = total y p (Some 1%Z).
Proof.
  intros [L [B _]]. rewrite <- (map_fst_combine y p L) at 1. unfold total. rewrite num_eq. apply zsum_events.
  intros [a b] H. apply B. now apply in_combine_l in H.
Qed.
Lemma count_y y p : scored y p -> count y = total y p None.
Proof. intros [L _]. unfold total, count. rewrite num_eq, num_all, combine_length. f_equal. lia. Qed.
Lemma bin_combine y p : scored y p -> bin01 (combine y p).
Proof. intros [_ [B _]] [a b] H. apply B. now apply in_combine_l in H. Qed.
Lemma nonevents y p : scored y p -> (count y - zsum y)%Z = total y p (Some 0%Z).
Proof.
  intros H. rewrite (count_y _ _ H), (zsum_y _ _ H). unfold total. rewrite !num_eq. pose proof (num_split (combine y p) (fun _ => true) (bin_combine _ _ H)). lia.
Qed.
Lemma combine_points n E (cs : list Z) : (0 < E)%Z -> combine (map (fun i => frac (Z.of_nat i) n) (seq 0 (length cs))) (map (fun c => ofrac c E) cs) = map shown_pt (points n E 0 cs).
Proof.
  intros H. unfold points. generalize 0 as i0. induction cs as [|c cs IH]; intros i0; [reflexivity|]. cbn [length seq map combine]. rewrite IH. unfold shown_pt, ofrac at 1. cbn [fst snd].
  destruct (E =? 0)%Z eqn:X; [lia|reflexivity].
Qed.

Section Drawn.
Variables (argsort : list Z -> list nat) (y p : list Z).
Hypothesis HA : argsort_ok argsort.
Hypothesis HS : scored y p.
Let L : list (Z * Z) := rev (srt argsort y p).
Let n := total y p None.
Let E := total y p (Some 1%Z).
Let N := total y p (Some 0%Z).
Definition cap_pts : list (Q * Q) := points n E 0 (0%Z :: cumsum 0 (map fst L)).
Definition cap_v : Q := (frac (2 * pairs y p gt_ + pairs y p eq_) (2 * (E * N)) * 2 - 1)%Q.

Lemma HLen : length y = length p. Proof. apply HS. Qed.
Lemma E_pos : (0 < E)%Z.
Proof. destruct HS as [X [_ [_ H]]]. apply (total_pos y p 1 X H). Qed.
Lemma N_pos : (0 < N)%Z.
Proof. destruct HS as [X [_ [H _]]]. apply (total_pos y p 0 X H). Qed.
Lemma n_eq : n = (E + N)%Z.
Proof. unfold n, E, N, total. rewrite !num_eq. apply num_split. now apply bin_combine. Qed.
Lemma n_pos : (0 < n)%Z.
Proof. pose proof E_pos. pose proof N_pos. pose proof n_eq. lia. Qed.
Lemma n_len : n = Z.of_nat (length y).
Proof. unfold n. rewrite <- (count_y _ _ HS). reflexivity. Qed.
Lemma L_perm : Permutation L (combine y p).
Proof. unfold L. eapply Permutation_trans; [apply Permutation_sym, Permutation_rev|]. apply srt_perm; [exact HA|exact HLen]. Qed.
Lemma L_bin : bin01 L.
Proof. intros r Hr. apply (bin_combine _ _ HS). now apply (Permutation_in _ L_perm). Qed.
Lemma L_len : length L = length y.
Proof. rewrite (Permutation_length L_perm), combine_length. pose proof HLen. lia. Qed.
Lemma num_L cls f : num L cls f = number y p cls f.
Proof. rewrite num_eq. apply num_perm, L_perm. Qed.

Lemma cap_drawn : draw_cap argsort y p = Ok [LRandom [(0, 0); (1, 1)]%Q; LPerfect [(0, 0); (frac E n, 1); (1, 1)]%Q; LModel (map shown_pt cap_pts) cap_v].
Proof.
  unfold draw_cap. destruct (roc_auc_ok y p HS) as [v [-> Ev]]. cbn [rbind]. rewrite (count_y _ _ HS), (zsum_y _ _ HS). fold n E.
  rewrite srt_rev_y. fold L. do 5 f_equal.
  - unfold cap_pts. rewrite <- combine_points by apply E_pos. do 2 f_equal. f_equal. cbn [length]. rewrite cumsum_length, map_length, L_len. reflexivity.
  - unfold cap_v. rewrite Ev. reflexivity.
Qed.
Lemma cap_len : length cap_pts = S (length y).
Proof. unfold cap_pts, points. rewrite combine_length, !map_length, seq_length. cbn [length]. rewrite cumsum_length, map_length, L_len. lia. Qed.
Lemma cap_nth i : i <= length y -> nth i cap_pts (0, 0)%Q = (frac (Z.of_nat i) n, frac (zsum (firstn i (map fst L))) E).
Proof.
  intros H. pose proof L_len as LL. unfold cap_pts, points. remember (0%Z :: cumsum 0 (map fst L)) as cs.
  assert (Lc : length cs = S (length y)) by (subst cs; cbn [length]; rewrite cumsum_length, map_length; lia).
  assert (Ec : nth i cs 0%Z = zsum (firstn i (map fst L))) by (subst cs; apply nth_cumsum0; rewrite map_length; lia).
  rewrite (nth_indep _ _ (frac (Z.of_nat 0) n, frac 0 E)) by (rewrite combine_length, !map_length, seq_length; lia).
  rewrite combine_nth by (rewrite !map_length, seq_length; reflexivity).
  change (frac (Z.of_nat 0) n) with ((fun i => frac (Z.of_nat i) n) 0) at 1. rewrite map_nth. change (frac 0 E) with ((fun c => frac c E) 0%Z) at 1. rewrite map_nth.
  rewrite seq_nth by lia. now rewrite Ec.
Qed.
Lemma firstn_events i : zsum (firstn i (map fst L)) = num (firstn i L) (Some 1%Z) (fun _ => true).
Proof. rewrite firstn_map. apply zsum_events. intros r Hr. apply L_bin. rewrite <- (firstn_skipn i L). apply in_or_app. now left. Qed.
Lemma L_above t : num (firstn (Z.to_nat (number y p None (fun s => (t <? s)%Z))) L) (Some 1%Z) (fun _ => true) = number y p (Some 1%Z) (fun s => (t <? s)%Z).
Proof.
  assert (X : Z.to_nat (number y p None (fun s => (t <? s)%Z)) = length (filter (fun r => (t <? snd r)%Z) L)).
  { rewrite <- (num_L None). unfold num. rewrite Nat2Z.id. reflexivity. }
  rewrite X.
  pose proof (srt_above argsort y p HA HLen t) as F. fold L in F. rewrite F. rewrite (num_filter L (Some 1%Z) (fun s => (t <? s)%Z)).
  rewrite <- num_L. apply num_ext. intros s. now rewrite andb_true_r.
Qed.
Lemma cap_area : area cap_pts == frac (2 * before L + E * E) (2 * n * E).
Proof.
  unfold cap_pts. rewrite (area_points n E n_pos E_pos L 0%Z 0). pose proof (twice_eq L 0%Z L_bin) as T. cbv zeta in T. rewrite T, !num_L. change (number y p (Some 1%Z) (fun _ => true)) with E. change (number y p None (fun _ => true)) with n.
  replace (2 * before L + 2 * 0 * n + E * E)%Z with (2 * before L + E * E)%Z by lia. reflexivity.
Qed.
Lemma cap_before : (- ties y p <= 2 * before L - (2 * pairs y p gt_ + pairs y p eq_) <= ties y p)%Z.
Proof.
  assert (S1 : StronglySorted (fun a b : Z * Z => (snd b <= snd a)%Z) L) by (apply (sorted_rev (fun a b : Z * Z => (snd a <= snd b)%Z)), srt_sorted; first [exact HA|exact HLen]).
  destruct (before_pairs L S1 L_bin) as [G _]. unfold ties. change (fun a b : Z => (a =? b)%Z) with eq_. rewrite !prs_eq.
  rewrite <- !(prs_perm _ _ _ L_perm). exact G.
Qed.
Lemma cap_gini : exists g, (area cap_pts - (1 # 2) == g * (area [(0, 0); (frac E n, 1); (1, 1)] - (1 # 2)))%Q /\
  (Qabs (g - cap_v) <= frac (ties y p) (E * N))%Q.
Proof.
  exists (frac (2 * before L - E * N) (E * N)). pose proof (injpos _ E_pos) as PE. pose proof (injpos _ N_pos) as PN. pose proof cap_before as CB. split.
  - rewrite cap_area. cbn [area fst snd]. unfold frac. rewrite n_eq. unfold Z.sub. rewrite ?inject_Z_plus, ?inject_Z_opp, ?inject_Z_mult, ?inject_Z_plus.
    change (inject_Z 2) with 2%Q. field. repeat split; lra.
  - unfold cap_v, frac. assert (X : (inject_Z (2 * before L - E * N) / inject_Z (E * N) - (inject_Z (2 * pairs y p gt_ + pairs y p eq_) / inject_Z (2 * (E * N)) * 2 - 1) ==
      inject_Z (2 * before L - (2 * pairs y p gt_ + pairs y p eq_)) / inject_Z (E * N))%Q).
    { unfold Z.sub. rewrite ?inject_Z_plus, ?inject_Z_opp, ?inject_Z_mult, ?inject_Z_plus, ?inject_Z_mult. change (inject_Z 2) with 2%Q. field. split; lra. }
    rewrite X. set (d := (2 * before L - (2 * pairs y p gt_ + pairs y p eq_))%Z) in *.
    assert (PEN : (0 < inject_Z (E * N))%Q) by (rewrite inject_Z_mult; now apply Qmult_lt_0_compat).
    unfold Qdiv. rewrite Qabs_Qmult. rewrite (Qabs_pos (/ inject_Z (E * N))) by (apply Qlt_le_weak; now apply Qinv_lt_0_compat).
    apply Qmult_le_compat_r; [|apply Qlt_le_weak; now apply Qinv_lt_0_compat].
    apply Qabs_Qle_condition. rewrite <- inject_Z_opp, <- !Zle_Qle. exact CB.
Qed.

(** ** KS *)
Let K : list (Z * Z) := srt argsort y p.
Definition cums : list Z := cumsum 0 (map fst K).
Definition diffs : list Q := map2 (fun a b => (frac a N - frac b E)%Q) (map2 Z.sub (map Z.of_nat (seq 0 (length y))) cums) cums.
Lemma K_len : length K = length y.
Proof. unfold K. apply srt_length; [exact HA|exact HLen]. Qed.
Lemma cums_len : length cums = length y.
Proof. unfold cums. now rewrite cumsum_length, map_length, K_len. Qed.
Lemma cum_nth i : i < length y -> nth i cums 0%Z = num (firstn (S i) K) (Some 1%Z) (fun _ => true).
Proof.
  intros H. unfold cums. rewrite nth_cumsum by (rewrite map_length, K_len; exact H). rewrite firstn_map, zsum_events; [lia|].
  intros r Hr. assert (HB : bin01 K) by (apply srt_bin; [exact HA|exact HLen|apply HS]). apply HB. rewrite <- (firstn_skipn (S i) K). apply in_or_app. now left.
Qed.
Definition fe : list Q := map (fun c => frac c E) cums.
Definition fn : list Q := map (fun c => frac c N) (map2 Z.sub (map Z.of_nat (seq 0 (length y))) cums).
Lemma nth_map2 {A B C} (f : A -> B -> C) : forall a b i da db dc, i < length a -> i < length b -> nth i (map2 f a b) dc = f (nth i a da) (nth i b db).
Proof.
  induction a as [|x a IH]; intros [|z b] i da db dc Ha Hb; cbn [length] in *; try lia. destruct i as [|i]; cbn [map2 nth]; [reflexivity|]. apply IH; lia.
Qed.
Lemma fe_len : length fe = length y.
Proof. unfold fe. now rewrite map_length, cums_len. Qed.
Lemma pop_len : length (map Z.of_nat (seq 0 (length y))) = length y.
Proof. now rewrite map_length, seq_length. Qed.
Lemma subs_len : length (map2 Z.sub (map Z.of_nat (seq 0 (length y))) cums) = length y.
Proof. rewrite length_map2; rewrite pop_len; [reflexivity|now rewrite cums_len]. Qed.
Lemma fn_len : length fn = length y.
Proof. unfold fn. now rewrite map_length, subs_len. Qed.
Lemma fe_nth i : i < length y -> nth i fe 0%Q = frac (nth i cums 0%Z) E.
Proof.
  intros H. unfold fe. rewrite (nth_indep _ _ (frac 0 E)) by (rewrite map_length, cums_len; exact H). exact (map_nth (fun c => frac c E) cums 0%Z i).
Qed.
Lemma fn_nth i : i < length y -> nth i fn 0%Q = frac (Z.of_nat i - nth i cums 0%Z) N.
Proof.
  intros H. unfold fn. rewrite (nth_indep _ _ (frac 0 N)) by (rewrite map_length, subs_len; exact H).
  rewrite (map_nth (fun c => frac c N)). f_equal.
  rewrite (nth_map2 _ _ _ _ 0%Z 0%Z) by (rewrite ?pop_len, ?cums_len; exact H).
  change 0%Z with (Z.of_nat 0) at 1. rewrite map_nth, seq_nth by exact H. reflexivity.
Qed.
Lemma diffs_len : length diffs = length y.
Proof. unfold diffs. rewrite length_map2; rewrite subs_len; [reflexivity|now rewrite cums_len]. Qed.
Lemma diffs_nth i : i < length y -> nth i diffs 0%Q = (nth i fn 0 - nth i fe 0)%Q.
Proof.
  intros H. rewrite fe_nth, fn_nth by exact H. unfold diffs.
  rewrite (nth_map2 _ _ _ _ 0%Z 0%Z) by (rewrite ?subs_len, ?cums_len; exact H).
  rewrite (nth_map2 _ _ _ _ 0%Z 0%Z) by (rewrite ?pop_len, ?cums_len; exact H).
  change 0%Z with (Z.of_nat 0) at 1. rewrite map_nth, seq_nth by exact H. reflexivity.
Qed.
Lemma y_pos : 0 < length y.
Proof. destruct HS as [_ [_ [H _]]]. destruct y; [destruct H|cbn; lia]. Qed.
Lemma ofrac_some a b : (0 < b)%Z -> ofrac a b = Some (frac a b).
Proof. intros H. unfold ofrac. destruct (b =? 0)%Z eqn:X; [lia|reflexivity]. Qed.
Lemma nth_some l i : i < length l -> nth i (map Some l) None = Some (nth i l 0%Q).
Proof. intros H. rewrite (nth_indep _ None (Some 0%Q)) by (rewrite map_length; exact H). apply map_nth. Qed.
Lemma ks_drawn : exists i, i < length y /\ (forall j, j < length y -> (nth j fn 0 - nth j fe 0 <= nth i fn 0 - nth i fe 0)%Q) /\
  draw_ks argsort y p = Ok [LEvents (combine (map snd K) (map Some fe)); LNonevents (combine (map snd K) (map Some fn));
    LKs (nth i (map snd K) 0%Z) (Some (nth i fe 0%Q)) (Some (nth i fn 0%Q)) (Some (nth i fn 0 - nth i fe 0)%Q)].
Proof.
  exists (np_argmax diffs). assert (D : diffs <> []) by (intros X; pose proof diffs_len as Y; rewrite X in Y; pose proof y_pos; cbn in Y; lia).
  destruct (np_argmax_spec diffs D) as [B M]. rewrite diffs_len in B, M. split; [exact B|]. split.
  - intros j Hj. specialize (M j Hj). now rewrite (diffs_nth j Hj), (diffs_nth _ B) in M.
  - unfold draw_ks. cbv zeta. rewrite (nonevents _ _ HS), (zsum_y _ _ HS), (srt_y argsort y p), (srt_p argsort y p). fold K. change (total y p (Some 0%Z)) with N. change (total y p (Some 1%Z)) with E.
    change (cumsum 0 (map fst K)) with cums. pose proof E_pos as PE. pose proof N_pos as PN.
    destruct (E =? 0)%Z eqn:XE; [lia|]. destruct (N =? 0)%Z eqn:XN; [lia|]. cbn [orb].
    assert (E1 : map (fun c => ofrac c E) cums = map Some fe).
    { unfold fe. rewrite map_map. apply map_ext. intros c. now apply ofrac_some. }
    assert (E2 : map (fun c => ofrac c N) (map2 Z.sub (map Z.of_nat (seq 0 (length y))) cums) = map Some fn).
    { unfold fn. rewrite map_map. apply map_ext. intros c. now apply ofrac_some. }
    rewrite E1, E2. cbn [app]. change (map2 (fun a b => (frac a N - frac b E)%Q) (map2 Z.sub (map Z.of_nat (seq 0 (length y))) cums) cums) with diffs.
    rewrite !nth_some by (rewrite ?fe_len, ?fn_len; exact B). rewrite (nth_error_nth' diffs 0%Q) by (rewrite diffs_len; exact B). rewrite (diffs_nth _ B). reflexivity.
Qed.
Lemma num_K cls f : num K cls f = number y p cls f.
Proof. rewrite num_eq. apply num_perm. apply srt_perm; [exact HA|exact HLen]. Qed.
Lemma K_upto t : num (firstn (Z.to_nat (number y p None (fun s => (s <=? t)%Z))) K) (Some 1%Z) (fun _ => true) = number y p (Some 1%Z) (fun s => (s <=? t)%Z).
Proof.
  assert (X : Z.to_nat (number y p None (fun s => (s <=? t)%Z)) = length (filter (fun r => (snd r <=? t)%Z) K)).
  { rewrite <- (num_K None). unfold num. rewrite Nat2Z.id. reflexivity. }
  rewrite X. pose proof (srt_upto argsort y p HA HLen t) as F. fold K in F. rewrite F. rewrite (num_filter K (Some 1%Z) (fun s => (s <=? t)%Z)).
  rewrite <- num_K. apply num_ext. intros s. now rewrite andb_true_r.
Qed.
Lemma number_split f : number y p None f = (number y p (Some 1%Z) f + number y p (Some 0%Z) f)%Z.
Proof. rewrite !num_eq. apply num_split. now apply bin_combine. Qed.
Lemma number_le f : (number y p None f <= n)%Z.
Proof. unfold n, total. rewrite !num_eq. apply num_le. Qed.
Lemma upto_pos s t : In s p -> (s <= t)%Z -> (0 < number y p None (fun s => (s <=? t)%Z))%Z.
Proof.
  intros H Hle. destruct (In_nth _ _ 0%Z H) as [i [Hi Ei]]. assert (G : In (nth i y 0%Z, s) (combine y p)).
  { rewrite <- Ei. rewrite <- combine_nth by exact HLen. apply nth_In. rewrite combine_length, HLen. lia. }
  unfold number. assert (F : In (nth i y 0%Z, s) (filter (fun r => true && (snd r <=? t)%Z) (combine y p))) by (apply filter_In; split; [exact G|]; cbn; now apply Z.leb_le).
  destruct (filter _ _); [destruct F|cbn [length]; lia].
Qed.
Lemma at_upto t : (0 < number y p None (fun s => (s <=? t)%Z))%Z -> let i := Z.to_nat (number y p None (fun s => (s <=? t)%Z) - 1) in
  i < length y /\ (nth i fe 0 == share_upto y p 1 t)%Q /\ (nth i fn 0 == share_upto y p 0 t - 1 / inject_Z N)%Q.
Proof.
  intros H i. assert (Hi : i < length y) by (pose proof (number_le (fun s => (s <=? t)%Z)) as X; rewrite n_len in X; lia). split; [exact Hi|].
  assert (C : nth i cums 0%Z = number y p (Some 1%Z) (fun s => (s <=? t)%Z)).
  { rewrite cum_nth by exact Hi. rewrite <- K_upto. do 2 f_equal. lia. }
  rewrite fe_nth, fn_nth, C by exact Hi. split; [reflexivity|]. unfold share_upto. change (total y p (Some 0%Z)) with N.
  assert (X : (Z.of_nat i - number y p (Some 1%Z) (fun s => (s <=? t)%Z) = number y p (Some 0%Z) (fun s => (s <=? t)%Z) - 1)%Z).
  { pose proof (number_split (fun s => (s <=? t)%Z)). lia. }
  rewrite X. unfold frac, Z.sub. rewrite inject_Z_plus. change (inject_Z (-(1))) with (-(1))%Q. pose proof (injpos _ N_pos). field. lra.
Qed.
Lemma strict_upto : forall (l : list (Z * Z)) i, StronglySorted (fun a b => (snd a < snd b)%Z) l -> i < length l ->
  length (filter (fun r => (snd r <=? snd (nth i l (0, 0)%Z))%Z) l) = S i.
Proof.
  induction l as [|r l IH]; intros i H Hi; [cbn in Hi; lia|]. inversion H as [|? ? Hl Hr]; subst. rewrite Forall_forall in Hr. destruct i as [|i].
  - cbn [nth filter]. rewrite Z.leb_refl. cbn [length]. f_equal. destruct (filter _ l) as [|q m] eqn:F; [reflexivity|].
    assert (G : In q (filter (fun r0 => (snd r0 <=? snd r)%Z) l)) by (rewrite F; now left). apply filter_In in G as [G G']. specialize (Hr q G). apply Z.leb_le in G'. lia.
  - cbn [nth filter length] in *. assert (G : In (nth i l (0, 0)%Z) l) by (apply nth_In; lia). specialize (Hr _ G).
    destruct (snd r <=? snd (nth i l (0, 0)%Z))%Z eqn:X; [|apply Z.leb_gt in X; lia]. cbn [length]. f_equal. apply IH; [exact Hl|lia].
Qed.
Lemma strictly (l : list (Z * Z)) : StronglySorted (fun a b => (snd a <= snd b)%Z) l -> NoDup (map snd l) -> StronglySorted (fun a b => (snd a < snd b)%Z) l.
Proof.
  induction 1 as [|a l Hl IH Ha]; intros D; [constructor|]. cbn [map] in D. inversion D as [|? ? Dn Dl]; subst. constructor; [now apply IH|].
  rewrite Forall_forall in *. intros b Hb. specialize (Ha b Hb). assert (snd a <> snd b) by (intros X; apply Dn; rewrite X; now apply in_map). lia.
Qed.
Lemma K_scores : Permutation (map snd K) p.
Proof.
  apply (Permutation_trans (l' := map snd (combine y p))); [apply Permutation_map, srt_perm; [exact HA|exact HLen]|].
  assert (X : map snd (combine y p) = p).
  { pose proof HLen as HL. clear -HL. revert p HL. induction y as [|a l IH]; intros [|b m] L; try discriminate; [reflexivity|]. cbn. f_equal. apply IH. cbn in L. lia. }
  rewrite X. apply Permutation_refl.
Qed.
Lemma own_rank i : distinct_scores p -> i < length y -> number y p None (fun s => (s <=? nth i (map snd K) 0)%Z) = Z.of_nat (S i).
Proof.
  intros D Hi. rewrite <- num_K. unfold num. cbn [andb]. f_equal. change 0%Z with (snd (0, 0)%Z). rewrite map_nth. apply strict_upto; [|now rewrite K_len].
  apply strictly; [apply srt_sorted; first [exact HA|exact HLen]|]. eapply Permutation_NoDup; [apply Permutation_sym, K_scores|exact D].
Qed.
End Drawn.
