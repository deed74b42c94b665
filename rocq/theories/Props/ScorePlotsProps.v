(** C90: what the figures of scorecard/plots.py show. *)
From Coq Require Import List ZArith QArith Qabs Bool Arith Lia Sorting Permutation Lqa.
From Verif Require Model.Lifecycle Proofs.LifeR.
From Verif Require Import Model.Arr Model.ScorePlots Spec.ScorePlotsSpec Proofs.ArrP Proofs.ScorePlotsP Proofs.ScorePlotsQ Proofs.ScorePlotsR.
Import ListNotations.
Open Scope nat_scope.

(** The CAP curve of a model: n + 1 points from (0, 0) to (1, 1); every record moves 1/n to the right and up by 0 or 1/E; it is never above
    the perfect model's line; at every score threshold it shows the share of the events scored above it against the share of the
    population scored above it; the number in the label is 2 AUC - 1. *)
Definition shown (t : Q * Q) : Q * option Q := (fst t, Some (snd t)).
Lemma filter_shorter {A} (f : A -> bool) l : length (filter f l) <= length l.
Proof. induction l as [|x l IH]; [apply le_n|]. cbn [filter]. destruct (f x); cbn [length]; lia. Qed.
Theorem C90_cap_curve argsort y p : argsort_ok argsort -> scored y p ->
  let n := length y in let E := inject_Z (total y p (Some 1%Z)) in
  exists pts q v, draw_cap argsort y p = Ok [LRandom [(0, 0); (1, 1)]%Q; LPerfect [(0, 0); (q, 1); (1, 1)]%Q; LModel (map shown pts) v] /\
    (q == E / inject_Z (Z.of_nat n))%Q /\ (v == 2 * auc_of y p - 1)%Q /\ length pts = S n /\
    (fst (nth 0 pts (0, 0)) == 0 /\ snd (nth 0 pts (0, 0)) == 0 /\ fst (nth n pts (0, 0)) == 1 /\ snd (nth n pts (0, 0)) == 1)%Q /\
    (forall i, i < n -> let a := nth i pts (0, 0)%Q in let b := nth (S i) pts (0, 0)%Q in
       (fst b == fst a + 1 / inject_Z (Z.of_nat n) /\ (snd b == snd a \/ snd b == snd a + 1 / E))%Q) /\
    (forall i, i <= n -> let a := nth i pts (0, 0)%Q in (0 <= snd a <= 1 /\ snd a * q <= fst a)%Q) /\
    (forall t, let i := Z.to_nat (number y p None (fun s => (t <? s)%Z)) in let a := nth i pts (0, 0)%Q in
       i <= n /\ (fst a == frac (number y p None (fun s => (t <? s)%Z)) (total y p None))%Q /\ (snd a == share_above y p 1 t)%Q).
Proof.
  intros HA HS n E. exists (cap_pts argsort y p), (frac (total y p (Some 1%Z)) (total y p None)), (cap_v y p).
  pose proof (E_pos y p HS) as PE. pose proof (n_pos y p HS) as Pn. pose proof (n_len y p HS) as Ln. fold n in Ln.
  pose proof (injpos _ PE) as PE'. pose proof (injpos _ Pn) as Pn'. pose proof (L_len argsort y p HA HS) as LL. pose proof (L_bin argsort y p HA HS) as LB.
  set (L := rev (srt argsort y p)) in *. pose proof (num_L argsort y p HA HS) as NL. fold L in NL.
  split; [exact (cap_drawn argsort y p HA HS)|]. split; [unfold frac, E; rewrite Ln; reflexivity|].
  split. { unfold cap_v. rewrite (auc_value y p HS). ring. }
  split; [exact (cap_len argsort y p HA HS)|].
  assert (C : forall i, i <= n -> nth i (cap_pts argsort y p) (0, 0)%Q = (frac (Z.of_nat i) (total y p None), frac (num (firstn i L) (Some 1%Z) (fun _ => true)) (total y p (Some 1%Z)))).
  { intros i Hi. rewrite (cap_nth argsort y p HA HS i Hi). unfold L. now rewrite (firstn_events argsort y p HA HS). }
  assert (All : num (firstn n L) (Some 1%Z) (fun _ => true) = total y p (Some 1%Z)).
  { rewrite firstn_all2 by (rewrite LL; unfold n; lia). apply NL. }
  split.
  { rewrite (C 0) by lia. rewrite (C n) by lia. rewrite All. cbn [fst snd firstn]. rewrite <- Ln. unfold frac. unfold num at 1. cbn. repeat split; try (unfold Qdiv; rewrite Qmult_0_l; reflexivity); field; lra. }
  split.
  { intros i Hi a b. unfold a, b. rewrite (C i), (C (S i)) by lia. cbn [fst snd]. split.
    - rewrite Nat2Z.inj_succ. unfold Z.succ, frac. rewrite inject_Z_plus, <- Ln. change (inject_Z 1) with 1%Q. field. lra.
    - assert (Hn : nth_error L i <> None) by (apply nth_error_Some; rewrite LL; exact Hi). destruct (nth_error L i) as [r|] eqn:Er; [clear Hn|congruence].
      assert (F : num (firstn (S i) L) (Some 1%Z) (fun _ => true) = ((if (fst r =? 1)%Z then 1 else 0) + num (firstn i L) (Some 1%Z) (fun _ => true))%Z).
      { clear -Er. revert i Er. induction L as [|q l IH]; intros [|i] Er; cbn in Er; try discriminate.
        - injection Er as ->. cbn [firstn]. rewrite num_cons. cbn [andb]. rewrite andb_true_r. reflexivity.
        - change (firstn (S (S i)) (q :: l)) with (q :: firstn (S i) l). change (firstn (S i) (q :: l)) with (q :: firstn i l).
          rewrite !num_cons, (IH i Er). lia. }
      rewrite F. destruct (fst r =? 1)%Z; [right|left; reflexivity]. unfold frac. rewrite inject_Z_plus. change (inject_Z 1) with 1%Q. fold E. field. unfold E. lra. }
  assert (B : forall i, (num (firstn i L) (Some 1%Z) (fun _ => true) <= total y p (Some 1%Z))%Z /\ (num (firstn i L) (Some 1%Z) (fun _ => true) <= Z.of_nat i)%Z).
  { intros i. split.
    - rewrite <- (NL (Some 1%Z) (fun _ => true)) || (unfold total; rewrite <- NL). rewrite <- (firstn_skipn i L) at 2. unfold num. rewrite filter_app, app_length. lia.
    - unfold num. pose proof (firstn_le_length i L). pose proof (filter_shorter (fun r : Z * Z => (fst r =? 1)%Z && true) (firstn i L)). lia. }
  split.
  { intros i Hi a. unfold a. rewrite (C i Hi). cbn [fst snd]. destruct (B i) as [B1 B2]. pose proof (num_nonneg (firstn i L) (Some 1%Z) (fun _ => true)) as B0.
    set (c := num (firstn i L) (Some 1%Z) (fun _ => true)) in *. unfold frac. rewrite Zle_Qle in B0, B1, B2. change (inject_Z 0) with 0%Q in B0.
    split; [split|].
    - apply Qle_shift_div_l; [exact PE'|]. rewrite Qmult_0_l. exact B0.
    - apply Qle_shift_div_r; [exact PE'|]. rewrite Qmult_1_l. exact B1.
    - apply Qle_shift_div_l; [exact Pn'|]. apply (Qle_trans _ (inject_Z c)); [|exact B2]. apply Qle_lteq. right. field. split; lra. }
  intros t i a. assert (Hi : i <= n) by (unfold i, n; pose proof (number_le y p (fun s => (t <? s)%Z)); lia). split; [exact Hi|]. unfold a. rewrite (C i Hi). cbn [fst snd]. split.
  - unfold i. rewrite Z2Nat.id by (unfold number; lia). reflexivity.
  - unfold i, L. rewrite (L_above argsort y p HA HS). reflexivity.
Qed.
Print Assumptions C90_cap_curve.

(** The number in the label and the picture agree: the ratio of the area between the CAP curve and the diagonal to the area between the perfect
    line and the diagonal is 2 AUC - 1 up to the share of tied pairs of an event and a non-event, and exactly when there is no tie. *)
Lemma shown_inj : forall b a, map shown_pt b = map shown a -> a = b.
Proof.
  induction b as [|[u v] b IH]; intros [|[s t] a] H; cbn [map] in H; try discriminate; [reflexivity|]. unfold shown_pt, shown in H. cbn [fst snd] in H.
  injection H as H1 H2 H3. f_equal; [now subst|now apply IH].
Qed.
Theorem C90_cap_gini argsort y p r q pts v : argsort_ok argsort -> scored y p -> draw_cap argsort y p = Ok [r; LPerfect q; LModel (map shown pts) v] ->
  exists g, (area pts - (1 # 2) == g * (area q - (1 # 2)))%Q /\ (0 < area q - (1 # 2))%Q /\
    (Qabs (g - v) <= frac (ties y p) (total y p (Some 1%Z) * total y p (Some 0%Z)))%Q /\ (ties y p = 0%Z -> g == v)%Q.
Proof.
  intros HA HS H. rewrite (cap_drawn argsort y p HA HS) in H.
  pose proof (f_equal (fun r => match r with Ok [_; LPerfect m; _] => m | _ => [] end) H) as Hq.
  pose proof (f_equal (fun r => match r with Ok [_; _; LModel m _] => m | _ => [] end) H) as Hp.
  pose proof (f_equal (fun r => match r with Ok [_; _; LModel _ w] => w | _ => 0%Q end) H) as Hv. cbv beta iota in Hq, Hp, Hv. clear H. subst q v.
  apply shown_inj in Hp.
  subst pts. destruct (cap_gini argsort y p HA HS) as [g [G1 G2]]. exists g. split; [exact G1|]. split; [|split; [exact G2|]].
  - cbn [area fst snd]. unfold frac. pose proof (injpos _ (E_pos y p HS)) as PE. pose proof (injpos _ (N_pos y p HS)) as PN. pose proof (n_eq y p HS) as X. rewrite X, inject_Z_plus.
    set (e := inject_Z (total y p (Some 1%Z))) in *. set (m := inject_Z (total y p (Some 0%Z))) in *.
    assert (Y : ((e / (e + m) - 0) * (0 + 1) / 2 + ((1 - e / (e + m)) * (1 + 1) / 2 + 0) - (1 # 2) == (1 # 2) * (m / (e + m)))%Q) by (field; lra).
    rewrite Y. apply Qmult_lt_0_compat; [reflexivity|]. apply Qlt_shift_div_l; [lra|]. lra.
  - intros T. rewrite T in G2. assert (Z0 : (Qabs (g - cap_v y p) <= 0)%Q) by (apply (Qle_trans _ _ _ G2), Qle_lteq; right; exact (Qmult_0_l _)).
    apply Qabs_Qle_condition in Z0. lra.
Qed.
Print Assumptions C90_cap_gini.

(** The KS figure: one point per record in increasing order of score; at every score the curves show the share of the events scored at most
    that, and the share of the non-events scored at most that MINUS ONE non-event; the vertical line joins them at one of the points, and the
    number is its height: not less than (share of non-events - share of events - one non-event) at any score, and exactly that at the drawn
    score when no two scores are equal. *)
Theorem C90_ks argsort y p : argsort_ok argsort -> scored y p ->
  let one := (1 / inject_Z (total y p (Some 0%Z)))%Q in
  exists xs fe fn i k, draw_ks argsort y p = Ok [LEvents (combine xs (map Some fe)); LNonevents (combine xs (map Some fn));
                                               LKs (nth i xs 0%Z) (Some (nth i fe 0%Q)) (Some (nth i fn 0%Q)) (Some k)] /\
    length fe = length y /\ length fn = length y /\ Permutation xs p /\ StronglySorted Z.le xs /\ i < length y /\ (k == nth i fn 0 - nth i fe 0)%Q /\
    (forall t s, In s p -> (s <= t)%Z -> let j := Z.to_nat (number y p None (fun s => (s <=? t)%Z) - 1) in
       j < length y /\ (nth j fe 0 == share_upto y p 1 t /\ nth j fn 0 == share_upto y p 0 t - one)%Q) /\
    (forall t s, In s p -> (s <= t)%Z -> (share_upto y p 0 t - share_upto y p 1 t - one <= k)%Q) /\
    (distinct_scores p -> let x := nth i xs 0%Z in (nth i fe 0 == share_upto y p 1 x /\ nth i fn 0 == share_upto y p 0 x - one /\ k == share_upto y p 0 x - share_upto y p 1 x - one)%Q).
Proof.
  intros HA HS one. destruct (ks_drawn argsort y p HA HS) as [i [Hi [M D]]]. exists (map snd (srt argsort y p)), (fe argsort y p), (fn argsort y p), i. eexists.
  split; [exact D|]. split; [exact (fe_len argsort y p HA HS)|]. split; [exact (fn_len argsort y p HA HS)|]. split; [exact (K_scores argsort y p HA HS)|]. split.
  { pose proof (proj2 (HA p)) as Q. unfold srt. rewrite map_map. exact Q. }
  split; [exact Hi|]. split; [reflexivity|].
  assert (A : forall t s, In s p -> (s <= t)%Z -> let j := Z.to_nat (number y p None (fun s => (s <=? t)%Z) - 1) in
    j < length y /\ (nth j (fe argsort y p) 0 == share_upto y p 1 t)%Q /\ (nth j (fn argsort y p) 0 == share_upto y p 0 t - one)%Q).
  { intros t s Hs Hle. apply (at_upto argsort y p HA HS). exact (upto_pos y p HS s t Hs Hle). }
  split; [exact A|]. split.
  - intros t s Hs Hle. destruct (A t s Hs Hle) as [Hj [X1 X2]]. specialize (M _ Hj). rewrite X1, X2 in M. lra.
  - intros Hd x. pose proof (own_rank argsort y p HA HS i Hd Hi) as R. destruct (at_upto argsort y p HA HS x) as [_ [X1 X2]]; [unfold x; rewrite R; lia|].
    unfold x in X1, X2 at 1. rewrite R in X1, X2. replace (Z.to_nat (Z.of_nat (S i) - 1)) with i in X1, X2 by lia. fold x in X1, X2. split; [exact X1|]. split; [exact X2|]. rewrite X1, X2. unfold one. ring.
Qed.
Print Assumptions C90_ks.

(** The ROC figure: the curve is the one sklearn computes, the number is the AUC, and the two figures of the same model agree: gini = 2 AUC - 1. *)
Theorem C90_roc argsort roc_curve y p : argsort_ok argsort -> scored y p ->
  exists auc, draw_roc roc_curve y p = Ok [LRandom (map (fun t => (fst t, fst t)) (roc_curve y p)); LModel (map shown (roc_curve y p)) auc] /\
    (auc == auc_of y p)%Q /\ (0 <= auc <= 1)%Q /\ forall r q m v, draw_cap argsort y p = Ok [r; q; LModel m v] -> (v == 2 * auc - 1)%Q.
Proof.
  intros HA HS. destruct (roc_auc_ok y p HS) as [v [Hv Ev]]. exists v. unfold draw_roc. rewrite Hv. split; [reflexivity|].
  assert (V : (v == auc_of y p)%Q) by (rewrite Ev; now apply auc_value). split; [exact V|]. split.
  - rewrite Ev. pose proof (injpos _ (E_pos y p HS)) as PE. pose proof (injpos _ (N_pos y p HS)) as PN.
    assert (PEN : (0 < inject_Z (2 * (total y p (Some 1%Z) * total y p (Some 0%Z))))%Q) by (rewrite !inject_Z_mult; change (inject_Z 2) with 2%Q; apply Qmult_lt_0_compat; [reflexivity|now apply Qmult_lt_0_compat]).
    assert (B : forall m l, (0 <= 2 * zsum (map (fun r : Z * Z => if (fst r =? 1)%Z then num m (Some 0%Z) (gt_ (snd r)) else 0%Z) l) +
        zsum (map (fun r : Z * Z => if (fst r =? 1)%Z then num m (Some 0%Z) (eq_ (snd r)) else 0%Z) l) <= 2 * (num l (Some 1%Z) (fun _ => true) * num m (Some 0%Z) (fun _ => true)))%Z).
    { intros m. assert (X : forall s, (0 <= num m (Some 0%Z) (gt_ s) /\ 0 <= num m (Some 0%Z) (eq_ s) /\ num m (Some 0%Z) (gt_ s) + num m (Some 0%Z) (eq_ s) <= num m (Some 0%Z) (fun _ => true))%Z).
      { intros s. split; [apply num_nonneg|]. split; [apply num_nonneg|]. induction m as [|q m IH]; [cbn; lia|]. rewrite !num_cons. unfold gt_, eq_ in *.
        destruct (fst q =? 0)%Z; cbn [andb]; destruct (snd q <? s)%Z eqn:A; destruct (s =? snd q)%Z eqn:B; lia. }
      induction l as [|r l IH]; [cbn; lia|]. rewrite num_cons. cbn [map zsum]. specialize (X (snd r)). rewrite andb_true_r. destruct (fst r =? 1)%Z; nia. }
    pose proof (B (combine y p) (combine y p)) as [B1 B2]. unfold frac. split.
    + apply Qle_shift_div_l; [exact PEN|]. rewrite Qmult_0_l. change 0%Q with (inject_Z 0). rewrite <- Zle_Qle. exact B1.
    + apply Qle_shift_div_r; [exact PEN|]. rewrite Qmult_1_l. rewrite <- Zle_Qle. exact B2.
  - intros r q m w H. destruct (C90_cap_curve argsort y p HA HS) as [pts [q' [v' [H' [_ [X _]]]]]]. rewrite H in H'.
    pose proof (f_equal (fun r => match r with Ok [_; _; LModel _ w] => w | _ => 0%Q end) H') as Hw. cbv beta iota in Hw. rewrite Hw, X, V. reflexivity.
Qed.
Print Assumptions C90_roc.

(** *** exact exceptions, and the figure the calls share *)
Definition good (c : pcall) : Prop := length (c_y c) = length (c_p c) /\ c_y c <> [] /\ c_types_ok c = true /\ (c_savefig c = true -> c_fname c <> None).
Theorem C90_rejected_iff argsort roc_curve s c : (forall v, In v (c_y c) -> v = 0 \/ v = 1)%Z ->
  let r := call argsort roc_curve s c in
  ((exists e, snd r = Err e) <-> ~ good c \/ (c_which c <> Ks /\ (~ In 0%Z (c_y c) \/ ~ In 1%Z (c_y c)))) /\
  ((exists e, snd r = Err e) -> fst r = s).
Proof.
  intros B. cbv zeta. split; [|unfold call; destruct (draw argsort roc_curve c); [intros [e H]; destruct (c_savefig c), (c_fname c); discriminate|reflexivity]].
  assert (R : (exists e, snd (call argsort roc_curve s c) = Err e) <-> exists e, draw argsort roc_curve c = Err e).
  { unfold call. destruct (draw argsort roc_curve c) as [a|e]; [|split; intros _; exists e; reflexivity].
    split; intros [e H]; [destruct (c_savefig c), (c_fname c)|]; discriminate. }
  rewrite R. clear R. unfold draw.
  destruct (length (c_y c) =? length (c_p c)) eqn:HL; cbn [negb orb].
  2:{ split; [intros _; left; intros [X _]; apply Nat.eqb_neq in HL; contradiction|intros _; eexists; reflexivity]. }
  apply Nat.eqb_eq in HL. destruct (length (c_y c) =? 0) eqn:HN.
  { split; [intros _; left; intros [_ [X _]]; apply X; apply Nat.eqb_eq in HN; now apply length_zero_iff_nil|intros _; eexists; reflexivity]. }
  apply Nat.eqb_neq in HN. destruct (c_types_ok c) eqn:HT; cbn [negb]; [|split; [intros _; left; intros [_ [_ [X _]]]; congruence|intros _; eexists; reflexivity]].
  destruct (c_savefig c && match c_fname c with None => true | Some _ => false end) eqn:HF.
  { split; [intros _; left; intros [_ [_ [_ X]]]|intros _; eexists; reflexivity]. destruct (c_savefig c); [|discriminate]. destruct (c_fname c); [discriminate|]. now apply X. }
  assert (G : good c).
  { split; [exact HL|]. split; [intros X; rewrite X in HN; now apply HN|]. split; [exact HT|]. intros X. rewrite X in HF. cbn [andb] in HF. destruct (c_fname c); [discriminate|discriminate]. }
  assert (A : (exists e, roc_auc (c_y c) (c_p c) = Err e) <-> (~ In 0%Z (c_y c) \/ ~ In 1%Z (c_y c))).
  { destruct (in_dec Z.eq_dec 0%Z (c_y c)) as [I0|I0].
    - destruct (in_dec Z.eq_dec 1%Z (c_y c)) as [I1|I1].
      + destruct (roc_auc_ok (c_y c) (c_p c)) as [v [-> _]]; [split; [exact HL|split; [exact B|split; assumption]]|]. split; [intros [e X]; discriminate|intros [X|X]; contradiction].
      + split; [intros _; now right|]. intros _. exists ValueError. unfold roc_auc. assert (X : scores_of 1 (c_y c) (c_p c) = []); [|now rewrite X].
        unfold scores_of. destruct (filter _ _) as [|q l] eqn:F; [reflexivity|]. assert (Y : In q (filter (fun r => (fst r =? 1)%Z) (combine (c_y c) (c_p c)))) by (rewrite F; now left).
        apply filter_In in Y as [Y1 Y2]. destruct q as [a b]. apply in_combine_l in Y1. cbn in Y2. apply Z.eqb_eq in Y2. subst a. contradiction.
    - split; [intros _; now left|]. intros _. exists ValueError. unfold roc_auc. assert (X : scores_of 0 (c_y c) (c_p c) = []); [|rewrite X; now destruct (scores_of 1 (c_y c) (c_p c))].
      unfold scores_of. destruct (filter _ _) as [|q l] eqn:F; [reflexivity|]. assert (Y : In q (filter (fun r => (fst r =? 0)%Z) (combine (c_y c) (c_p c)))) by (rewrite F; now left).
      apply filter_In in Y as [Y1 Y2]. destruct q as [a b]. apply in_combine_l in Y1. cbn in Y2. apply Z.eqb_eq in Y2. subst a. contradiction. }
  destruct (c_which c) eqn:W.
  - transitivity (exists e, roc_auc (c_y c) (c_p c) = Err e).
    + unfold draw_roc. destruct (roc_auc (c_y c) (c_p c)) as [v|e]; cbn [rbind]; split; intros [e' X]; try discriminate; eexists; reflexivity.
    + rewrite A. split; [intros X; right; split; [discriminate|exact X]|intros [X|[_ X]]; [exfalso; exact (X G)|exact X]].
  - transitivity (exists e, roc_auc (c_y c) (c_p c) = Err e).
    + unfold draw_cap. cbv zeta. destruct (roc_auc (c_y c) (c_p c)) as [v|e]; cbn [rbind]; split; intros [e' X]; try discriminate; eexists; reflexivity.
    + rewrite A. split; [intros X; right; split; [discriminate|exact X]|intros [X|[_ X]]; [exfalso; exact (X G)|exact X]].
  - split; [intros [e X]; unfold draw_ks in X; cbv zeta in X; destruct (_ || _) in X; discriminate|intros [X|[X _]]; exfalso; [exact (X G)|now apply X]].
Qed.
Print Assumptions C90_rejected_iff.

(** What a call draws; whether it ends by saving. *)
Definition picture argsort roc_curve (c : pcall) : list artist := match draw argsort roc_curve c with Ok a => a | Err _ => [] end.
Definition saves argsort roc_curve (c : pcall) : Prop := c_savefig c = true /\ exists a, draw argsort roc_curve c = Ok a.
Lemma draw_fname argsort roc_curve c a : draw argsort roc_curve c = Ok a -> c_savefig c = true -> c_fname c <> None.
Proof. unfold draw. intros H X Y. rewrite X, Y in H. cbn [andb] in H. destruct (_ || _) in H; [discriminate|]. destruct (negb (c_types_ok c)); discriminate. Qed.
Theorem C90_history argsort roc_curve s h : (forall c, In c h -> ~ saves argsort roc_curve c) ->
  fst (calls argsort roc_curve s h) = fst s ++ concat (map (picture argsort roc_curve) h) /\ snd (calls argsort roc_curve s h) = snd s.
Proof.
  revert s. induction h as [|c h IH]; intros s H; [cbn; now rewrite app_nil_r|]. cbn [calls map concat].
  destruct (IH (fst (call argsort roc_curve s c))) as [E1 E2]; [intros x Hx; apply H; now right|]. rewrite E1, E2. clear E1 E2 IH.
  specialize (H c (or_introl eq_refl)). unfold saves in H. unfold picture at 2. unfold call. destruct (draw argsort roc_curve c) as [a|e] eqn:D; [|cbn [fst snd app]; split; reflexivity].
  destruct (c_savefig c) eqn:X; [exfalso; apply H; split; [reflexivity|now exists a]|]. cbn [fst snd]. rewrite app_assoc. split; reflexivity.
Qed.
Print Assumptions C90_history.
(** A call that saves writes everything drawn since the last saving call, and starts a new figure. *)
Theorem C90_saved argsort roc_curve s h c : saves argsort roc_curve c -> (forall c, In c h -> ~ saves argsort roc_curve c) -> fst s = [] ->
  exists f, c_fname c = Some f /\ let s' := fst (call argsort roc_curve (calls argsort roc_curve s h) c) in
    snd s' f = Some (concat (map (picture argsort roc_curve) h) ++ picture argsort roc_curve c) /\ (forall g, g <> f -> snd s' g = snd s g) /\ fst s' = [].
Proof.
  intros [X [a D]] H F. destruct (C90_history argsort roc_curve s h H) as [E1 E2]. rewrite F in E1. cbn [app] in E1.
  destruct (c_fname c) as [f|] eqn:Y; [|exfalso; exact (draw_fname argsort roc_curve c a D X Y)]. exists f. split; [reflexivity|]. cbv zeta.
  unfold picture at 2. unfold call. rewrite D, X, Y. cbn [fst snd]. rewrite Z.eqb_refl, E1. split; [reflexivity|]. split; [|reflexivity].
  intros g Hg. destruct (g =? f)%Z eqn:Z; [apply Z.eqb_eq in Z; contradiction|now rewrite E2].
Qed.
Print Assumptions C90_saved.

(** *** an argsort, and one that puts equal values in the other order *)
Definition asort (l : list Z) : list nat := map snd (Lifecycle.sort_by_key (combine l (seq 0 (length l)))).
Definition asort' (l : list Z) : list nat := map snd (Lifecycle.sort_by_key (rev (combine l (seq 0 (length l))))).
Lemma insert_perm {A} (x : Z * A) l : Permutation (Lifecycle.insert_by_key x l) (x :: l).
Proof.
  induction l as [|a l IH]; [apply Permutation_refl|]. cbn [Lifecycle.insert_by_key]. destruct (fst x <=? fst a)%Z; [apply Permutation_refl|].
  eapply Permutation_trans; [apply perm_skip, IH|apply perm_swap].
Qed.
Lemma sort_perm {A} (l : list (Z * A)) : Permutation (Lifecycle.sort_by_key l) l.
Proof. induction l as [|a l IH]; [constructor|]. cbn [Lifecycle.sort_by_key fold_right]. eapply Permutation_trans; [apply insert_perm|now constructor]. Qed.
Lemma sorting l m : Permutation m (combine l (seq 0 (length l))) ->
  Permutation (map snd (Lifecycle.sort_by_key m)) (seq 0 (length l)) /\ StronglySorted Z.le (map (fun i => nth i l 0%Z) (map snd (Lifecycle.sort_by_key m))).
Proof.
  intros P. assert (Q : Permutation (Lifecycle.sort_by_key m) (combine l (seq 0 (length l)))) by (eapply Permutation_trans; [apply sort_perm|exact P]).
  assert (S2 : forall (a : list Z) k, map snd (combine a (seq k (length a))) = seq k (length a)).
  { induction a as [|x a IH]; intros k; [reflexivity|]. cbn [length seq combine map snd]. f_equal. apply IH. }
  split; [eapply Permutation_trans; [apply Permutation_map, Q|rewrite S2; apply Permutation_refl]|].
  assert (V : forall r, In r (Lifecycle.sort_by_key m) -> nth (snd r) l 0%Z = fst r).
  { intros r Hr. apply (Permutation_in _ Q) in Hr. clear -Hr. assert (G : forall (a : list Z) k, In r (combine a (seq k (length a))) -> k <= snd r /\ nth (snd r - k) a 0%Z = fst r).
    { induction a as [|x a IH]; intros k H; [destruct H|]. cbn [length seq combine] in H. destruct H as [<-|H]; [cbn [fst snd]; rewrite Nat.sub_diag; split; [lia|reflexivity]|].
      destruct (IH (S k) H) as [G1 G2]. split; [lia|]. replace (snd r - k) with (S (snd r - S k)) by lia. exact G2. }
    destruct (G l 0 Hr) as [_ G2]. now rewrite Nat.sub_0_r in G2. }
  rewrite map_map. pose proof (LifeR.sort_key_sorted m) as T. revert V T. generalize (Lifecycle.sort_by_key m). intros k V T.
  induction T as [|r k Hk IH Hr]; [constructor|]. cbn [map]. constructor; [apply IH; intros q Hq; apply V; now right|].
  rewrite Forall_map. rewrite Forall_forall in *. intros q Hq. rewrite (V r (or_introl eq_refl)), (V q (or_intror Hq)). now apply Hr.
Qed.
Lemma asort_ok : argsort_ok asort.
Proof. intros l. apply sorting, Permutation_refl. Qed.
Lemma asort'_ok : argsort_ok asort'.
Proof. intros l. apply sorting, Permutation_sym, Permutation_rev. Qed.

(** *** refuted: the number in the KS figure is the Kolmogorov-Smirnov statistic *)
Ltac scored_ := split; [reflexivity|split; [intros v [<-|[<-|[]]]; auto|split; cbn; auto]].
Theorem C90_ks_value_refuted :
  (scored [0; 1]%Z [1; 2]%Z /\ distinct_scores [1; 2]%Z /\ (share_upto [0; 1]%Z [1; 2]%Z 0 1 - share_upto [0; 1]%Z [1; 2]%Z 1 1 == 1)%Q /\
   exists c x lo hi k, draw_ks asort [0; 1]%Z [1; 2]%Z = Ok (c ++ [LKs x lo hi (Some k)]) /\ (k == 0)%Q) /\
  (scored [1; 0]%Z [1; 2]%Z /\ exists c x lo hi k, draw_ks asort [1; 0]%Z [1; 2]%Z = Ok (c ++ [LKs x lo hi (Some k)]) /\ (k == -(1))%Q).
Proof.
  split.
  - split; [scored_|]. split; [repeat constructor; cbn; intuition discriminate|]. split; [vm_compute; reflexivity|].
    exists [LEvents [(1%Z, Some (frac 0 1)); (2%Z, Some (frac 1 1))]; LNonevents [(1%Z, Some (frac 0 1)); (2%Z, Some (frac 0 1))]], 1%Z, (Some (frac 0 1)), (Some (frac 0 1)). eexists. split; [vm_compute; reflexivity|vm_compute; reflexivity].
  - split; [scored_|].
    exists [LEvents [(1%Z, Some (frac 1 1)); (2%Z, Some (frac 1 1))]; LNonevents [(1%Z, Some (frac (-1) 1)); (2%Z, Some (frac 0 1))]], 2%Z, (Some (frac 1 1)), (Some (frac 0 1)). eexists. split; [vm_compute; reflexivity|vm_compute; reflexivity].
Qed.
Print Assumptions C90_ks_value_refuted.
(** *** refuted: the figures depend only on the scores and the targets: when scores are equal they depend on the order argsort happens to give,
    so the CAP curve of a constant score can be that of the perfect model (with Gini = 0 in the label) and the KS number can change *)
Theorem C90_ties_refuted : scored [0; 1]%Z [1; 1]%Z /\
  (exists r a b m1 m2 v, draw_cap asort [0; 1]%Z [1; 1]%Z = Ok [r; LPerfect a; LModel (map shown m1) v] /\ draw_cap asort' [0; 1]%Z [1; 1]%Z = Ok [r; LPerfect b; LModel (map shown m2) v] /\
     (area m1 == area a /\ v == 0 /\ ~ area m2 == area m1)%Q) /\
  (exists c1 c2 x1 x2 l1 l2 h1 h2 k1 k2, draw_ks asort [0; 1]%Z [1; 1]%Z = Ok (c1 ++ [LKs x1 l1 h1 (Some k1)]) /\ draw_ks asort' [0; 1]%Z [1; 1]%Z = Ok (c2 ++ [LKs x2 l2 h2 (Some k2)]) /\ ~ (k1 == k2)%Q).
Proof.
  split; [scored_|]. split.
  - exists (LRandom [(0, 0); (1, 1)]%Q). exists [(0, 0); (frac 1 2, 1); (1, 1)]%Q, [(0, 0); (frac 1 2, 1); (1, 1)]%Q.
    exists [(frac 0 2, frac 0 1); (frac 1 2, frac 1 1); (frac 2 2, frac 1 1)], [(frac 0 2, frac 0 1); (frac 1 2, frac 0 1); (frac 2 2, frac 1 1)]. eexists.
    split; [vm_compute; reflexivity|]. split; [vm_compute; reflexivity|]. split; [vm_compute; reflexivity|]. split; [vm_compute; reflexivity|]. vm_compute. discriminate.
  - exists [LEvents [(1%Z, Some (frac 0 1)); (1%Z, Some (frac 1 1))]; LNonevents [(1%Z, Some (frac 0 1)); (1%Z, Some (frac 0 1))]].
    exists [LEvents [(1%Z, Some (frac 1 1)); (1%Z, Some (frac 1 1))]; LNonevents [(1%Z, Some (frac (-1) 1)); (1%Z, Some (frac 0 1))]].
    exists 1%Z, 1%Z, (Some (frac 0 1)), (Some (frac 1 1)), (Some (frac 0 1)), (Some (frac 0 1)). do 2 eexists.
    split; [vm_compute; reflexivity|]. split; [vm_compute; reflexivity|]. vm_compute. discriminate.
Qed.
Print Assumptions C90_ties_refuted.
(** *** refuted: a saved file shows the curves of the call that saved it: after an unsaved call it shows that call's curves too *)
Theorem C90_overlay_refuted : exists c1 c2 f, let rc := fun _ _ : list Z => [] in saves asort rc c2 /\ c_fname c2 = Some f /\
  snd (fst (call asort rc (calls asort rc ([], fun _ => None) [c1]) c2)) f <> Some (picture asort rc c2) /\
  snd (fst (call asort rc ([], fun _ => None) c2)) f = Some (picture asort rc c2).
Proof.
  exists (mkCall Cap [0; 1]%Z [1; 2]%Z true false None), (mkCall Ks [0; 1]%Z [1; 2]%Z true true (Some 7%Z)), 7%Z. cbv zeta.
  split; [split; [reflexivity|eexists; vm_compute; reflexivity]|]. split; [reflexivity|]. split; [vm_compute; discriminate|vm_compute; reflexivity].
Qed.
Print Assumptions C90_overlay_refuted.

(** Non-vacuity: six scored records with a tie between two events, and the numbers both figures show. *)
Example C90_hyps_met : let y := [0; 1; 0; 1; 1; 0]%Z in let p := [2; 5; 1; 5; 3; 4]%Z in
  argsort_ok asort /\ scored y p /\ ties y p = 0%Z /\ (auc_of y p == 8 # 9)%Q /\
  (exists r q m v, draw_cap asort y p = Ok [r; q; LModel m v] /\ (v == 7 # 9)%Q) /\
  (exists a b x lo hi k, draw_ks asort y p = Ok [a; b; LKs x lo hi (Some k)] /\ x = 2%Z /\ (k == 1 # 3)%Q) /\
  scored y [6; 5; 4; 3; 2; 1]%Z /\ distinct_scores [6; 5; 4; 3; 2; 1]%Z /\
  (let rc := fun _ _ : list Z => [] in let c := mkCall Cap y p true true (Some 3%Z) in let d := mkCall RocAuc y p true false None in
   saves asort rc c /\ (forall x, In x [d] -> ~ saves asort rc x) /\ good c /\ ~ good (mkCall Ks y [] true false None) /\ (forall v, In v y -> v = 0 \/ v = 1)%Z).
Proof.
  cbv zeta. assert (B : forall v, In v [0; 1; 0; 1; 1; 0]%Z -> (v = 0 \/ v = 1)%Z) by (intros v [<-|[<-|[<-|[<-|[<-|[<-|[]]]]]]]; auto).
  split; [exact asort_ok|]. split; [split; [reflexivity|split; [exact B|split; cbn; auto]]|]. split; [vm_compute; reflexivity|]. split; [vm_compute; reflexivity|].
  split; [do 4 eexists; split; [vm_compute; reflexivity|vm_compute; reflexivity]|]. split; [do 6 eexists; split; [vm_compute; reflexivity|split; vm_compute; reflexivity]|].
  split; [split; [reflexivity|split; [exact B|split; cbn; auto]]|]. split; [repeat constructor; cbn; intuition discriminate|].
  split; [split; [reflexivity|eexists; vm_compute; reflexivity]|]. split; [intros x [<-|[]] [X _]; discriminate|].
  split; [split; [reflexivity|split; [discriminate|split; [reflexivity|intros _; discriminate]]]|]. split; [intros [X _]; discriminate|exact B].
Qed.
