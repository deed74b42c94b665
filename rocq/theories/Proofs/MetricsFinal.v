From Coq Require Import List ZArith Bool Arith Reals Lra Lia Permutation Sorting.
From Verif Require Import Model.Arr Model.Core Model.Cat Model.Metrics Spec.CoreSpec Spec.CatSpec Spec.MetricsSpec Proofs.MetricsP
  Proofs.MetricsQ Proofs.CoreP Proofs.CoreFinal Proofs.CatP.
Import ListNotations.
Open Scope R_scope.

Definition displayed (m : bmetric) (nev ev : list Z) : list R :=
  match m with BWoe => woe nev ev | BEventRate => event_rate nev ev end.

Lemma in_bin_lt splits k z : in_bin_i splits k z -> (k < S (length splits))%nat.
Proof.
  unfold in_bin_i. intros H. destruct (nth_error (edges splits) k) eqn:E1; [|contradiction].
  destruct (nth_error (edges splits) (S k)) eqn:E2; [|contradiction].
  assert (S k < length (edges splits))%nat by (apply nth_error_Some; congruence).
  unfold edges in H0. cbn [length] in H0. rewrite app_length, map_length in H0. cbn in H0. lia.
Qed.

Lemma displayed_length m nev ev : length nev = length ev -> length (displayed m nev ev) = length ev.
Proof.
  intros. destruct m; unfold displayed, woe, mask, event_rate; rewrite ?map2_len; rewrite ?map2_len; auto; lia.
Qed.

Lemma transform_displayed splits sp m ms mm u nev ev x k :
  nondecreasing splits -> sp_disjoint sp -> length nev = length ev ->
  length ev = (S (length splits) + n_special sp + 1)%nat ->
  0 < t_nev nev -> 0 < t_ev ev -> (forall z, u <> UInt z) ->
  row_of splits sp x k ->
  ((k < S (length splits))%nat \/ (ms = Empirical /\ mm = Empirical)) ->
  exists v, nth_error (displayed m nev ev) k = Some v /\
            transform_binary_num splits sp m ms mm u nev ev x = Ok v.
Proof.
  intros Hs Hd Hl1 Hl2 Hn He Hu Hr Hk. unfold transform_binary_num.
  set (emp := is_empirical ms || is_empirical mm). set (nb := S (length splits)) in *.
  assert (Hemp : (emp = true \/ k < nb)%nat).
  { destruct Hk as [Hk|[-> ->]]; [right; exact Hk|left; reflexivity]. }
  assert (Hst : forall r, store_res u r = r).
  { intros [r|e]; [|reflexivity]. destruct u; try reflexivity. exfalso. eapply Hu. reflexivity. }
  rewrite Hst. set (mv := metric_values m emp nb nev ev).
  assert (Emv : nth_error mv k = nth_error (displayed m nev ev) k) by (apply metric_values_table; auto).
  assert (Hk2 : (k < length ev)%nat).
  { rewrite Hl2. unfold row_of in Hr. destruct x as [|z]; [unfold nb; lia|].
    destruct Hr as [(i & Hi & ->)|[_ Hi]].
    - assert (i < n_special sp)%nat; [|unfold nb; lia]. destruct sp as [|l|d]; cbn in Hi |- *; [contradiction|lia|].
      destruct Hi as (kv & Hkv & _). apply nth_error_Some. congruence.
    - apply in_bin_lt in Hi. unfold nb. lia. }
  destruct (nth_error (displayed m nev ev) k) as [v|] eqn:Ev.
  2:{ apply nth_error_None in Ev. rewrite displayed_length in Ev by assumption. lia. }
  exists v. split; [reflexivity|].
  assert (Hidx : idx mv k = Ok v) by (unfold idx; now rewrite Emv).
  destruct x as [|z].
  - cbn in Hr. subst k. destruct Hk as [Hk|[-> ->]]; [unfold nb in Hk; lia|].
    rewrite (proj1 (C24_missing splits sp MValue Empirical mv _ Empirical) eq_refl). exact Hidx.
  - destruct Hr as [(i & Hi & ->)|[Hc Hi]].
    + destruct Hk as [Hk|[-> ->]]; [unfold nb in Hk; lia|].
      rewrite (proj1 (C24_special splits sp MValue Empirical mv _ Empirical z i Hd Hi) eq_refl). exact Hidx.
    + eapply (@values_are_bins R splits sp MValue ms mm mv _ z k v); eauto.
Qed.

Lemma transform_displayed_cat bins sp m ms mm u nev ev c i :
  length nev = length ev -> (length bins <= length ev)%nat ->
  0 < t_nev nev -> 0 < t_ev ev -> (forall z, u <> UInt z) ->
  ~ In (XNum c) (flat_codes sp) -> listed bins i c -> (forall j, listed bins j c -> j = i) ->
  exists v, nth_error (displayed m nev ev) i = Some v /\
            transform_binary_cat bins sp m ms mm u nev ev (XNum c) = Ok v.
Proof.
  intros Hl1 Hl2 Hn He Hu Hc Hli Huq. unfold transform_binary_cat.
  set (emp := is_empirical ms || is_empirical mm). set (nb := length bins) in *.
  assert (Hst : forall r, store_res u r = r).
  { intros [r|e]; [|reflexivity]. destruct u; try reflexivity. exfalso. eapply Hu. reflexivity. }
  rewrite Hst. set (mv := metric_values m emp nb nev ev).
  assert (Hi : (i < nb)%nat) by (destruct Hli as (b & Hb & _); apply nth_error_Some; congruence).
  assert (Emv : nth_error mv i = nth_error (displayed m nev ev) i) by (apply metric_values_table; auto).
  rewrite (cat_transform_listed _ _ _ _ _ _ _ _ i Hc Hli Huq).
  destruct (nth_error (displayed m nev ev) i) as [v|] eqn:Ev.
  2:{ apply nth_error_None in Ev. rewrite displayed_length in Ev by assumption. lia. }
  exists v. split; [reflexivity|]. unfold idx. now rewrite Emv.
Qed.

(** ** unknown categories *)
Lemma zsum_app a b : zsum (a ++ b) = (zsum a + zsum b)%Z.
Proof. induction a as [|x a IH]; cbn; [lia|]. rewrite IH. lia. Qed.
Lemma kept_sum emp nb (l : list Z) : emp = true \/ zsum (skipn nb l) = 0%Z -> zsum (kept emp nb l) = zsum l.
Proof.
  intros [->|H]; [reflexivity|]. unfold kept. destruct emp; [reflexivity|].
  rewrite <- (firstn_skipn nb l) at 2. rewrite zsum_app. lia.
Qed.
Lemma unknown_mean emp nb nev ev : length nev = length ev -> 0 < t_nev nev -> 0 < t_ev ev ->
  emp = true \/ zsum (skipn nb (n_records nev ev)) = 0%Z ->
  unknown_value BEventRate emp nb nev ev UNone = t_event_rate nev ev /\
  unknown_value BWoe emp nb nev ev UNone = 0.
Proof.
  intros Hl Hn He Hk. cbn. unfold mean_event_rate. rewrite kept_sum by assumption. rewrite n_records_sum by assumption.
  split; [reflexivity|]. unfold er_to_woe.
  replace ((1 / (t_ev ev / (t_nev nev + t_ev ev)) - 1) * t_ev ev / t_nev nev) with 1 by (field; lra). apply ln_1.
Qed.

(** ** C18 *)
Lemma table_shares nev ev : length nev = length ev -> counts_ok nev -> counts_ok ev -> 0 < t_nev nev -> 0 < t_ev ev ->
  rsum (p_records nev ev) = 1 /\ (forall p, In p (p_records nev ev) -> 0 <= p <= 1).
Proof.
  intros Hl Hn He H1 H2. unfold p_records. assert (E := n_records_sum nev ev Hl). split.
  - apply share_sum; [now symmetry|lra].
  - intros p Hp. apply (share_bounds (n_records nev ev) (t_nev nev + t_ev ev)); [now apply n_records_ok|symmetry; exact E|lra|exact Hp].
Qed.
Lemma table_row nev ev k e n : length nev = length ev -> 0 < t_nev nev -> 0 < t_ev ev ->
  nth_error nev k = Some n -> nth_error ev k = Some e -> (0 <= e)%Z -> (0 <= n)%Z ->
  exists er w, nth_error (event_rate nev ev) k = Some er /\ nth_error (woe nev ev) k = Some w /\ 0 <= er <= 1 /\
    ((0 < e)%Z /\ (0 < n)%Z -> er = IZR e / (IZR e + IZR n) /\ w = ln ((IZR n / t_nev nev) / (IZR e / t_ev ev))) /\
    (~ ((0 < e)%Z /\ (0 < n)%Z) -> er = 0 /\ w = 0).
Proof.
  intros Hl Ht1 Ht2 Hn He H1 H2. eexists. eexists. split; [exact (event_rate_nth nev ev k e n Hn He)|]. split; [exact (woe_nth nev ev k e n Hn He)|].
  destruct (Z.ltb_spec 0 e), (Z.ltb_spec 0 n); cbn [andb].
  2,3,4: split; [lra|]; split; [intros [? ?]; lia|auto].
  destruct (er_row e n H H0) as [Hb Er]. split; [lra|]. split; [|tauto]. intros _. split; [now rewrite plus_IZR|].
  rewrite Er. rewrite <- ln_mult; [f_equal| |]; apply IZR_lt in H, H0.
  - field. lra.
  - now apply div_pos.
  - now apply div_pos.
Qed.
