From Coq Require Import List ZArith Bool Arith Reals Lra Lia.
From Verif Require Import Model.Arr Model.Core Model.Cat Model.Metrics Model.Scorecard Model.Counterfactual
  Spec.CoreSpec Spec.CatSpec Spec.ScoreSpec Spec.CounterfactualSpec
  Proofs.ArrP Proofs.CoreP Proofs.FitP Proofs.CatP Proofs.MetricsP Proofs.MetricsQ Proofs.ScoreP Proofs.CounterP Proofs.CounterQ.
Import ListNotations.
Open Scope R_scope.

(** *** transformed values *)
Lemma bin_value ms mm v x j : svar_ok v -> table_row v x j -> (j < n_bins_of v)%nat -> sv_value ms mm v x = Ok (nth j (sv_metric v) 0).
Proof.
  intros Hok H Hj. destruct (sv_index_row v x j Hok H) as [_ Hk]. destruct Hok as (Hd & Hl & Hb).
  assert (Hi : idx (sv_metric v) j = Ok (nth j (sv_metric v) 0)).
  { unfold idx. destruct (nth_error (sv_metric v) j) as [w|] eqn:E; [now rewrite (nth_error_nth _ _ 0 E)|apply nth_error_None in E; lia]. }
  unfold sv_value, table_row, n_bins_of in *. destruct (sv_bins v) as [splits|bins].
  - destruct x as [|z]; cbn [row_of] in H; [lia|]. destruct H as [(i & Hi' & ->)|(Hn & Hi')]; [lia|].
    rewrite transform1_clean by (now apply not_code_clean).
    assert (j = digitize splits z) as <-; [|exact Hi]. eapply in_bin_unique; [exact Hb|exact Hi'|now apply digitize_in_bin].
  - destruct x as [|c]; [lia|]. destruct H as [(i & Hi' & ->)|(Hn & Hi')]; [lia|].
    rewrite (cat_transform_listed bins (sv_sp v) MValue ms mm (sv_metric v) (sv_unknown v) c j Hn Hi'); [exact Hi|].
    intros k Hk'. now apply (Hb _ _ c).
Qed.

(** [ms]/[mm] have the effect of the constant 0 *)
Lemma zero_toc a mv i : zero_arg a -> table_or_const MValue a mv i = Ok 0.
Proof. intros (b & ->). reflexivity. Qed.
Lemma apply_special_zero ms (mv : list R) n sp x cur : zero_arg ms ->
  apply_special MValue ms mv n sp x cur = apply_special MValue (Const true 0) mv n sp x cur.
Proof.
  intros Hz. destruct sp as [|l|d]; cbn [apply_special]; [reflexivity|destruct (isin l x); [|reflexivity]; now rewrite !zero_toc by (try assumption; now exists true)|].
  revert n cur. induction d as [|[k cs] d IH]; intros n cur; cbn [special_dict]; [reflexivity|].
  rewrite (zero_toc ms mv n Hz), (zero_toc (Const true 0) mv n) by now exists true. apply IH.
Qed.
Lemma query_value ms mm v q : query_value_agrees ms mm v q -> sv_value ms mm v q = sv_value (Const true 0) (Const true 0) v q.
Proof.
  intros (Hm & Hs). assert (Hz : zero_arg (Const true 0)) by now exists true.
  assert (Hn : q = XNaN \/ q <> XNaN) by (destruct q; [now left|now right]).
  unfold sv_value. destruct Hn as [Hn | Hn].
  - subst q. specialize (Hm eq_refl). destruct (sv_bins v); [rewrite !transform1_missing|rewrite !cat_transform_missing]; now rewrite !zero_toc.
  - assert (Ha : forall n cur, apply_special MValue ms (sv_metric v) n (sv_sp v) q cur = apply_special MValue (Const true 0) (sv_metric v) n (sv_sp v) q cur).
    { intros n cur. destruct (isin (flat_codes (sv_sp v)) q) eqn:E.
      - apply apply_special_zero. apply Hs; [now apply isin_In|exact Hn].
      - now rewrite !apply_special_clean by exact E. }
    assert (Hq : x_isnull q = false) by (destruct q; [congruence|reflexivity]).
    destruct (sv_bins v); unfold transform1_num, transform1_cat; rewrite Hq, Ha; reflexivity.
Qed.

Lemma transform_query_nth vars q x : transform_query vars q = Ok x -> length x = length vars /\
  forall i v a, nth_error vars i = Some v -> nth_error q i = Some a -> sv_value (Const true 0) (Const true 0) v a = Ok (nth i x 0).
Proof.
  revert q x; induction vars as [|v vars IH]; intros q x H.
  - injection H as <-. split; [reflexivity|]. intros [|i]; discriminate.
  - destruct q as [|a q]; [discriminate|]. cbn [transform_query] in H.
    destruct (sv_value (Const true 0) (Const true 0) v a) as [w|] eqn:E; [|discriminate]. cbn [rbind] in H.
    destruct (transform_query vars q) as [r|] eqn:Er; [|discriminate]. cbn [rbind] in H. injection H as <-.
    destruct (IH q r Er) as (Hl & Hn). split; [cbn; now rewrite Hl|]. intros [|i] v' a' Hv Ha; cbn in *.
    + injection Hv as <-. injection Ha as <-. exact E.
    + now apply Hn.
Qed.

Lemma linear_sum_values ms mm vars xs (g : nat -> R) : length xs = length vars ->
  (forall i v b, nth_error vars i = Some v -> nth_error xs i = Some b -> sv_value ms mm v b = Ok (g i)) ->
  linear_sum ms mm vars xs = Ok (rsum (map (fun i => nth i (map sv_coef vars) 0 * g i) (seq 0 (length vars)))).
Proof.
  revert xs g; induction vars as [|v vars IH]; intros xs g Hl H; [destruct xs; reflexivity|].
  destruct xs as [|b xs]; [discriminate|]. cbn [linear_sum].
  rewrite (H 0%nat v b eq_refl eq_refl). cbn [rbind].
  rewrite (IH xs (fun i => g (S i))); [|now injection Hl|intros i w c Hi Hc; exact (H (S i) w c Hi Hc)].
  cbn [rbind length seq map nth]. rewrite <- seq_shift, map_map. reflexivity.
Qed.

Lemma prediction ms mm vars q x c xs ic sm mc na : Forall svar_ok vars -> transform_query vars q = Ok x ->
  sm = false -> valid_moves sm vars x mc na c -> realises vars q xs c ->
  (forall i v a, nth_error vars i = Some v -> nth_error q i = Some a -> c i = None -> query_value_agrees ms mm v a) ->
  exists l, linear_sum ms mm vars xs = Ok l /\ ic + l = score_after vars x ic c.
Proof.
  intros Hv Hq Hsm (Hc & _) (Hlx & Hlq & Hr) Ha. destruct (transform_query_nth _ _ _ Hq) as (Hl & Hn).
  eexists. split; [apply (linear_sum_values ms mm vars xs (value_after (map sv_metric vars) x c)); [exact Hlx|]|reflexivity].
  intros i v b Ev Eb. destruct (nth_error q i) as [a|] eqn:Eq.
  2:{ apply nth_error_None in Eq. assert (i < length vars)%nat by (apply nth_error_Some; congruence). lia. }
  specialize (Hr i v a b Ev Eq Eb). unfold value_after. destruct (c i) as [j|] eqn:Ec.
  - destruct (Hc i j Ec) as (_ & v' & a' & Ev' & _ & Hj & _). rewrite Ev in Ev'. injection Ev' as <-. rewrite Hsm in Hj.
    rewrite Forall_forall in Hv. rewrite (bin_value ms mm v b j (Hv v (nth_error_In _ _ Ev)) Hr Hj).
    f_equal. f_equal. symmetry. apply nth_error_nth. now rewrite nth_error_map, Ev.
  - subst b. rewrite (query_value ms mm v a (Ha i v a Ev Eq Ec)). now apply Hn.
Qed.

(** *** the piecewise linear probability *)
Lemma sumn_single n (f : nat -> R) r : (r < n)%nat -> (forall i, (i < n)%nat -> i <> r -> f i = 0) -> sumn n f = f r.
Proof.
  intros Hr H. unfold sumn. assert (G : forall l, NoDup l -> (forall i, In i l -> i <> r -> f i = 0) -> rsum (map f l) = if in_dec Nat.eq_dec r l then f r else 0).
  { induction l as [|a l IH]; intros Hn Hz; [reflexivity|]. inversion Hn; subst. cbn [map].
    change (f a + rsum (map f l) = if in_dec Nat.eq_dec r (a :: l) then f r else 0).
    rewrite IH by (try assumption; intros i Hi; apply Hz; now right).
    destruct (in_dec Nat.eq_dec r (a :: l)) as [Hi|Hi]; destruct (in_dec Nat.eq_dec r l) as [Hi'|Hi'].
    - assert (a <> r) by (intros ->; contradiction). rewrite (Hz a (or_introl eq_refl) H0). lra.
    - destruct Hi as [->|Hi]; [lra|contradiction].
    - exfalso. apply Hi. now right.
    - rewrite (Hz a (or_introl eq_refl)); [lra|]. intros ->. apply Hi. now left. }
  rewrite G; [|apply seq_NoDup|intros i Hi; apply H; now apply in_seq0].
  destruct (in_dec Nat.eq_dec r (seq 0 n)) as [_|Hc]; [reflexivity|]. exfalso. apply Hc. now apply in_seq0.
Qed.
Lemma b2r_sum (s : nat -> bool) l : rsum (map (fun r => b2r (s r)) l) = INR (length (filter s l)).
Proof.
  induction l as [|a l IH]; [reflexivity|]. cbn [map filter]. change (b2r (s a) + rsum (map (fun r => b2r (s r)) l) = INR (length (if s a then a :: filter s l else filter s l))).
  rewrite IH. destruct (s a); cbn [b2r length]; [rewrite S_INR|]; lra.
Qed.
Lemma one_selected n (s : nat -> bool) : sumn n (fun r => b2r (s r)) = 1 -> exists r, (r < n)%nat /\ s r = true /\ forall i, (i < n)%nat -> i <> r -> s i = false.
Proof.
  unfold sumn. rewrite b2r_sum. intros H. assert (Hl : length (filter s (seq 0 n)) = 1%nat) by (apply INR_eq; cbn [INR]; lra).
  destruct (filter s (seq 0 n)) as [|r [|r' l]] eqn:E; try discriminate. exists r.
  assert (Hr : In r (filter s (seq 0 n))) by (rewrite E; now left). apply filter_In in Hr as (Hr & Hs). apply in_seq0 in Hr.
  split; [exact Hr|split; [exact Hs|]]. intros i Hi Hne. destruct (s i) eqn:Es; [|reflexivity]. exfalso.
  assert (In i (filter s (seq 0 n))) by (apply filter_In; split; [now apply in_seq0|exact Es]). rewrite E in H0. destruct H0 as [H0|[]]. congruence.
Qed.
Lemma pw_segment D V : c_pw D V -> exists r, (r < length (d_pw D))%nat /\
  fst (fst (segment (d_pw D) r)) <= activation D V <= snd (fst (segment (d_pw D) r)) /\
  v_f V = snd (snd (segment (d_pw D) r)) * activation D V + fst (snd (segment (d_pw D) r)) /\ 0 <= v_f V <= 1.
Proof.
  intros (Hf & Hh & Hp & Hs & Hb). destruct (one_selected _ _ Hs) as (r & Hr & Er & Ho). exists r. split; [exact Hr|].
  assert (Hz : forall i, (i < length (d_pw D))%nat -> i <> r -> v_h V i = 0).
  { intros i Hi Hne. specialize (Hb i Hi). rewrite (Ho i Hi Hne) in Hb. cbn [b2r] in Hb. lra. }
  rewrite (sumn_single _ _ r Hr Hz) in Hh. rewrite (sumn_single _ _ r Hr) in Hp.
  2:{ intros i Hi Hne. rewrite (Hz i Hi Hne), (Ho i Hi Hne). cbn [b2r]. lra. }
  specialize (Hb r Hr). rewrite Er in Hb, Hp. cbn [b2r] in Hb, Hp. unfold segment. rewrite <- Hh. split; [lra|split; [|exact Hf]]. rewrite <- Hp. lra.
Qed.

(** *** hierarchical optimisation *)
Lemma hierarchical_feasible tol G D o K names pre S : hierarchical tol G D o K names pre S -> feasible G D o K S /\ within_tol tol D K S pre.
Proof.
  induction 1 as [n pre S (Hf & Hw & _)|n m rest pre S0 S Hs Hh (Hf & Hw)]; [now split|]. split; [exact Hf|].
  intros n' v Hn. apply Hw. apply in_or_app. now left.
Qed.
(** the objective of highest priority *)
Lemma hierarchical_first tol G D o K n rest S : hierarchical tol G D o K (n :: rest) [] S -> 0 <= tol -> 
  exists v, (exists S0, feasible G D o K S0 /\ obj D K S0 n = v) /\ (forall S', feasible G D o K S' -> v <= obj D K S' n) /\ obj D K S n <= v + tol * Rabs v.
Proof.
  intros H Ht. inversion H as [? ? ? (Hf & _ & Hb)|? m rest' ? S0 ? (Hf & _ & Hb) Hh]; subst.
  - exists (obj D K S n). split; [now exists S|]. split; [intros S' HS; apply Hb; [exact HS|intros ? ? []]|].
    pose proof (Rabs_pos (obj D K S n)). assert (0 <= tol * Rabs (obj D K S n)) by (apply Rmult_le_pos; assumption). lra.
  - exists (obj D K S0 n). split; [now exists S0|]. split; [intros S' HS; apply Hb; [exact HS|intros ? ? []]|].
    destruct (hierarchical_feasible _ _ _ _ _ _ _ _ Hh) as (_ & Hw). destruct (Hw n (obj D K S0 n) (or_introl eq_refl)) as (dp & dm & H1 & H2 & H3 & H4). lra.
Qed.
