(** Columns, statistics, histories and transform of the 2D tables. *)
From Coq Require Import List ZArith QArith Bool Arith Lia String Reals Sorting Lra.
From Verif Require Import Model.Arr Model.Core Model.Metrics Model.TwoD Model.TwoDCont Model.TwoDCart Model.TwoDPairs Model.MultiTable Model.TwoDTable
  Spec.CoreSpec Spec.MetricsSpec Spec.TwoDSpec Spec.TwoDContSpec Spec.TwoDCartSpec Spec.TwoDPairsSpec Spec.TwoDTableSpec
  Proofs.ArrP Proofs.CoreP Proofs.MetricsP Proofs.MetricsQ Proofs.MetricsFinal Proofs.TwoDP Proofs.TwoDQ Proofs.TwoDR Proofs.TwoDS Proofs.TwoDV Proofs.TwoDC Proofs.TwoDCR
  Proofs.TwoDPairsP Proofs.TwoDPairsQ Proofs.TwoDTableP Proofs.TwoDTableQ Proofs.TwoDTableR.
Import ListNotations.
Open Scope nat_scope.

Lemma nth_of {A} (l : list A) k d a : nth_error l k = Some a -> nth k l d = a.
Proof. apply nth_error_nth. Qed.
Lemma event_rate_nth' nev ev k e n : nth_error nev k = Some n -> nth_error ev k = Some e ->
  nth_error (event_rate nev ev) k = Some (if (Z.ltb 0 e && Z.ltb 0 n)%bool then IZR e / IZR (e + n) else 0)%R.
Proof. intros. unfold event_rate. now apply (column_nth (fun e n => if (Z.ltb 0 e && Z.ltb 0 n)%bool then (IZR e / IZR (e + n))%R else 0%R)). Qed.
Lemma len_map2 {A B C} (f : A -> B -> C) a b : List.length a = List.length b -> List.length (map2 f a b) = List.length a.
Proof. apply map2_len. Qed.

Section Cols.
Variables (nev ev : list Z) (L : nat).
Hypothesis Ln : List.length nev = L.
Hypothesis Le : List.length ev = L.
Hypothesis Cn : counts_ok nev.
Hypothesis Ce : counts_ok ev.
Hypothesis Pn : (0 < zsum nev)%Z.
Hypothesis Pe : (0 < zsum ev)%Z.
Lemma cols_lengths : List.length (n_records nev ev) = L /\ List.length (p_records nev ev) = L /\ List.length (event_rate nev ev) = L /\
  List.length (woe nev ev) = L /\ (forall phi, List.length (div_rows nev ev phi) = L).
Proof.
  assert (E : List.length ev = List.length nev) by lia.
  assert (L1 : List.length (n_records nev ev) = L) by (unfold n_records; rewrite len_map2; lia).
  assert (L2 : List.length (event_rate nev ev) = L) by (unfold event_rate; rewrite len_map2; lia).
  split; [exact L1|]. split; [unfold p_records; now rewrite map_length|]. split; [exact L2|]. split.
  - unfold woe, mask. rewrite !len_map2; [exact Le|exact E|]. rewrite len_map2; [lia|exact E].
  - intros phi. unfold div_rows. rewrite len_map2; lia.
Qed.
Lemma cols_row k : k < L -> let e := nth k ev 0%Z in let n := nth k nev 0%Z in
  (0 <= e)%Z /\ (0 <= n)%Z /\ nth k (n_records nev ev) 0%Z = (e + n)%Z /\
  (nth k (p_records nev ev) 0 = IZR (e + n) / IZR (zsum ev + zsum nev))%R /\
  ((0 < e)%Z -> (0 < n)%Z ->
     (nth k (event_rate nev ev) 0 = IZR e / IZR (e + n) /\ 0 < IZR e / IZR (e + n) < 1 /\
      nth k (woe nev ev) 0 = ln ((IZR n / IZR (zsum nev)) / (IZR e / IZR (zsum ev))) /\
      forall phi, nth k (div_rows nev ev phi) 0 = phi (IZR e / IZR (zsum ev)) (IZR n / IZR (zsum nev)))%R) /\
  (~ ((0 < e)%Z /\ (0 < n)%Z) -> (nth k (event_rate nev ev) 0 = 0 /\ nth k (woe nev ev) 0 = 0 /\ forall phi, nth k (div_rows nev ev phi) 0 = 0)%R).
Proof.
  intros Hk e n.
  assert (Hn : nth_error nev k = Some n) by (apply nth_error_nth'; lia). assert (He : nth_error ev k = Some e) by (apply nth_error_nth'; lia).
  assert (E0 : (0 <= e)%Z) by (apply Ce; eapply nth_error_In; eauto). assert (N0 : (0 <= n)%Z) by (apply Cn; eapply nth_error_In; eauto).
  assert (Tn : (0 < Metrics.t_nev nev)%R) by (unfold Metrics.t_nev; now apply (IZR_lt 0)). assert (Te : (0 < Metrics.t_ev ev)%R) by (unfold Metrics.t_ev; now apply (IZR_lt 0)).
  split; [exact E0|]. split; [exact N0|].
  assert (R1 : nth_error (n_records nev ev) k = Some (e + n)%Z) by (unfold n_records; now apply (column_nth Z.add)).
  split; [now apply nth_of|]. split.
  { apply nth_of. unfold p_records. rewrite nth_error_map, R1. cbn [option_map]. unfold Metrics.t_nev, Metrics.t_ev. rewrite <- plus_IZR. do 3 f_equal. lia. }
  destruct (table_row nev ev k e n ltac:(lia) Tn Te Hn He E0 N0) as (er & w & A1 & A2 & _ & A3 & A4).
  assert (D : forall phi, nth_error (div_rows nev ev phi) k = Some (if (Z.ltb 0 e && Z.ltb 0 n)%bool then phi (IZR e / Metrics.t_ev ev) (IZR n / Metrics.t_nev nev) else 0)%R).
  { intros phi. unfold div_rows. now apply (column_nth (fun e n => if (Z.ltb 0 e && Z.ltb 0 n)%bool then phi (IZR e / Metrics.t_ev ev)%R (IZR n / Metrics.t_nev nev)%R else 0%R)). }
  rewrite (nth_of _ _ _ _ A1), (nth_of _ _ _ _ A2). split.
  - intros He0 Hn0. destruct (A3 (conj He0 Hn0)) as [-> ->]. rewrite plus_IZR.
    assert (P1 : (0 < IZR e)%R) by now apply (IZR_lt 0). assert (P2 : (0 < IZR n)%R) by now apply (IZR_lt 0).
    split; [reflexivity|]. split; [|split; [reflexivity|]].
    + split; [apply div_pos; lra|]. apply Rmult_lt_reg_r with (IZR e + IZR n)%R; [lra|]. unfold Rdiv. rewrite Rmult_assoc, Rinv_l by lra. lra.
    + intros phi. apply nth_of. rewrite D. apply Z.ltb_lt in He0, Hn0. now rewrite He0, Hn0.
  - intros H. destruct (A4 H) as [-> ->]. split; [reflexivity|]. split; [reflexivity|]. intros phi. apply nth_of. rewrite D.
    destruct (Z.ltb_spec 0 e), (Z.ltb_spec 0 n); cbn [andb]; try reflexivity. exfalso. tauto.
Qed.
End Cols.

(** ** histories *)
Section Hist.
Context {F : Type}.
Variable k : kit F.
Lemma texec2_app o h1 : forall h2, texec2 k o (h1 ++ h2) =
  (fst (texec2 k (fst (texec2 k o h1)) h2), (snd (texec2 k o h1) ++ snd (texec2 k (fst (texec2 k o h1)) h2))%list).
Proof.
  revert o. induction h1 as [|c h1 IH]; intros o h2; [cbn [texec2 app fst snd]; now destruct (texec2 k o h2)|].
  cbn [texec2 app]. destruct (tstep2 k o c) as [o' v] eqn:Es. rewrite IH. destruct (texec2 k o' h1) as [o1 l1]. reflexivity.
Qed.
Definition state (h : list top2) : tobj := fst (texec2 k new_table h).
Lemma state_snoc h c : state (h ++ [c]) = fst (tstep2 k (state h) c).
Proof.
  unfold state. rewrite texec2_app. cbn [fst texec2]. destruct (tstep2 k _ c) as [o v]. reflexivity.
Qed.
Lemma flags h : (o_built (state h) = true <-> built_in h) /\ last_quality k h (o_quality (state h)).
Proof.
  induction h as [|c h [IH1 IH2]] using rev_ind.
  - split.
    + cbn. split; [discriminate|]. intros (b & []).
    + right. split; [|reflexivity]. intros h1 h2 name E. destruct h1; discriminate.
  - rewrite state_snoc.
    assert (B : built_in (h ++ [c]) <-> built_in h \/ exists b, c = QBuild None b).
    { unfold built_in. split.
      - intros (b & Hb). apply in_app_iff in Hb as [Hb|[->|[]]]; [left; eauto|right; eauto].
      - intros [(b & Hb)|(b & ->)]; exists b; apply in_app_iff; [now left|right; now left]. }
    (* the quality when c does not succeed as an analysis *)
    assert (KEEP : (forall name, c = QAnalysis name -> built_in h -> forall v, k_analysis k name <> Ok v) -> last_quality k (h ++ [c]) (o_quality (state h))).
    { intros HN. destruct IH2 as [(h1 & h2 & name & v & E & Bi & Ka & Eq & Hl)|[Hno Eq]].
      - left. exists h1, (h2 ++ [c])%list, name, v. split; [rewrite E, <- app_assoc; reflexivity|]. split; [exact Bi|]. split; [exact Ka|]. split; [exact Eq|].
        intros name' Hin v'. apply in_app_iff in Hin as [Hin|[Ec|[]]]; [now apply Hl|]. apply (HN name' Ec).
        destruct Bi as (b & Hb). exists b. rewrite E. apply in_app_iff. now left.
      - right. split; [|exact Eq]. intros h1 h2 name E Bi v. destruct h2 as [|d h2 _] using rev_ind.
        + apply app_inj_tail in E as [E1 E2]. subst. apply (HN name eq_refl Bi).
        + rewrite app_comm_cons, app_assoc in E. apply app_inj_tail in E as [E _]. apply (Hno h1 h2 name E Bi). }
    destruct c as [[e|] totals|i| |bad w|name]; cbn [tstep2 fst o_built o_quality].
    + split; [|apply KEEP; discriminate]. rewrite IH1, B. split; [now left|]. intros [H|(b & H)]; [exact H|discriminate].
    + split; [|apply KEEP; discriminate]. rewrite B. split; [intros _; right; eauto|reflexivity].
    + split; [|apply KEEP; discriminate]. rewrite IH1, B. split; [now left|]. intros [H|(b & H)]; [exact H|discriminate].
    + split; [|apply KEEP; discriminate]. rewrite IH1, B. split; [now left|]. intros [H|(b & H)]; [exact H|discriminate].
    + split; [|apply KEEP; discriminate]. rewrite IH1, B. split; [now left|]. intros [H|(b & H)]; [exact H|discriminate].
    + assert (B' : built_in (h ++ [QAnalysis name]) <-> built_in h) by (rewrite B; split; [intros [H|(b & H)]; [exact H|discriminate]|now left]).
      rewrite B'. destruct (o_built (state h)) eqn:Ob; cbn [negb].
      * assert (Bi : built_in h) by now apply IH1. destruct (k_analysis k name) as [q|e] eqn:Ka; cbn [fst o_built o_quality].
        -- split; [tauto|]. left. exists h, [], name, q. split; [reflexivity|]. split; [exact Bi|]. split; [exact Ka|]. split; [reflexivity|]. intros ? [].
        -- rewrite Ob. split; [tauto|]. apply KEEP. intros name' E _ v. injection E as <-. rewrite Ka. discriminate.
      * cbn [fst]. rewrite Ob. split; [exact IH1|]. apply KEEP. intros name' E Bi. apply IH1 in Bi. congruence.
Qed.
Lemma answers h c : exists v, snd (texec2 k new_table (h ++ [c])) = (snd (texec2 k new_table h) ++ [v])%list /\ answer2 k (built_in h) (o_quality (state h)) c v.
Proof.
  exists (snd (tstep2 k (state h) c)). split.
  - rewrite texec2_app. cbn [snd texec2]. fold (state h). destruct (tstep2 k (state h) c) as [o v]. reflexivity.
  - destruct (flags h) as [HB _]. destruct (o_built (state h)) eqn:Ob.
    + assert (Bi : built_in h) by now apply HB. destruct c as [[e|] totals|i| |bad w|name]; cbn [tstep2 snd answer2]; rewrite ?Ob; cbn [negb].
      * reflexivity.
      * reflexivity.
      * left. split; [exact Bi|]. intros r ->. reflexivity.
      * destruct (o_quality (state h)); reflexivity.
      * destruct bad; [right; left; auto|]. right; right. split; [exact Bi|]. split; [reflexivity|]. destruct (k_plot k w) as [g|e]; [left; eauto|right; eauto].
      * right. split; [exact Bi|]. destruct (k_analysis k name) as [q|e]; [left; eauto|right; eauto].
    + assert (Bi : ~ built_in h) by (intros H; apply HB in H; discriminate). destruct c as [[e|] totals|i| |bad w|name]; cbn [tstep2 snd answer2]; rewrite ?Ob; cbn [negb]; auto.
      destruct (o_quality (state h)); reflexivity.
Qed.
End Hist.

(** ** analysis *)
Lemma firstn_nth {A} nb (l : list A) k d : k < nb -> nth k (firstn nb l) d = nth k l d.
Proof.
  intros Hk. rewrite <- (firstn_skipn nb l) at 2. destruct (Nat.lt_ge_cases k (List.length (firstn nb l))) as [H|H]; [now rewrite app_nth1|]. rewrite nth_overflow by exact H.
  rewrite firstn_length in H. symmetry. rewrite firstn_skipn. apply nth_overflow. lia.
Qed.
Lemma zsum_pos l : l <> [] -> (forall v, In v l -> (0 < v)%Z) -> (0 < zsum l)%Z.
Proof.
  induction l as [|v l IH]; [congruence|]. intros _ Hp. cbn [zsum]. pose proof (Hp v (or_introl eq_refl)). destruct l as [|w l]; [cbn; lia|].
  specialize (IH ltac:(discriminate) (fun u Hu => Hp u (or_intror Hu))). lia.
Qed.
