(** The multiclass table and contingency tables: connection of the code's expressions with the specification. *)
From Coq Require Import List ZArith Bool Arith Lia Reals Lra.
From Verif Require Import Model.Arr Model.Core Model.Multi Model.Metrics Model.MultiT Model.MultiTable
  Spec.MetricsSpec Spec.MultiTableSpec Proofs.ArrP Proofs.MetricsP Proofs.MetricsQ Proofs.MultiTableP.
Import ListNotations.
Open Scope R_scope.

Lemma total_rsum l : total l = rsum l.
Proof. induction l as [|a l IH]; [reflexivity|]. cbn [total rsum]. now rewrite IH. Qed.
Lemma mean_w l : mean l = rsum (map (fun a => 1 / INR (length l) * a) l).
Proof. unfold mean. rewrite total_rsum, (rsum_multl (fun a => a)), map_id. unfold Rdiv. ring. Qed.
Lemma mean_map {A} (f : A -> R) l : mean (map f l) = rsum (map (fun a => 1 / INR (length l) * f a) l).
Proof. rewrite mean_w, map_map, map_length. reflexivity. Qed.

Section Table.
Variables (rows : nat) (cols : list (list Z)).
Hypothesis Hok : table_ok rows cols.

Lemma t_ne : cols <> []. Proof. apply Hok. Qed.
Lemma t_len col : In col cols -> length col = rows. Proof. intros H. now apply Hok. Qed.
Lemma t_rows : mt_rows cols = rows.
Proof. destruct Hok as [H1 H2]. destruct cols as [|c l]; [congruence|]. apply H2. now left. Qed.
Lemma t_sum_pos col : In col cols -> 0 < IZR (zsum col).
Proof. intros H. apply IZR_lt. now apply Hok. Qed.
Lemma share_nonneg col k : In col cols -> 0 <= share col k.
Proof.
  intros H. pose proof (t_sum_pos col H). unfold share, at_row. destruct (nth_in_or_default k col 0%Z) as [Hi| ->].
  - apply Rmult_le_pos; [|left; now apply Rinv_0_lt_compat]. apply IZR_le. destruct Hok as [_ G]. destruct (G col H) as (_ & Hc & _). now apply Hc.
  - unfold Rdiv. rewrite Rmult_0_l. lra.
Qed.
Lemma share_one col : In col cols -> rsum (map (share col) (seq 0 rows)) = 1.
Proof.
  intros H. pose proof (t_sum_pos col H). unfold share. change (fun k => IZR (at_row k col) / IZR (zsum col)) with (fun k => (IZR (at_row k col)) * / IZR (zsum col)).
  rewrite rsum_mult. rewrite <- (t_len col H). rewrite <- (map_map (fun k => at_row k col) IZR). unfold at_row. rewrite map_nth_seq, <- IZR_zsum. field. lra.
Qed.
Lemma js_jsg : mb_js cols = jsg cols (seq 0 rows) share.
Proof.
  rewrite jsg_entropy. unfold mb_js, js_multivariate, mb_dists. cbv zeta. rewrite t_rows, map_length.
  f_equal; [f_equal|].
  - apply map_ext_in. intros k _. unfold mix. rewrite map_map. apply rsum_ext. intros col Hc. f_equal. unfold share, at_row.
    pose proof (map_nth (fun n => IZR n / IZR (zsum col)) col 0%Z k) as M. cbv beta in M.
    replace (IZR 0 / IZR (zsum col)) with 0 in M by (unfold Rdiv; ring). exact M.
  - rewrite map_map. apply rsum_ext. intros col Hc. f_equal. f_equal.
    transitivity (map (fun n => IZR n / IZR (zsum col)) (map (fun k => nth k col 0%Z) (seq 0 rows))).
    + rewrite <- (t_len col Hc), map_nth_seq. reflexivity.
    + now rewrite map_map.
Qed.
Lemma js_doc : mb_js cols = doc_js rows cols.
Proof.
  rewrite js_jsg. unfold jsg, doc_js. rewrite mean_map. apply rsum_ext. intros col Hc. f_equal. change total with rsum.
  apply rsum_ext. intros k Hk. rewrite mean_map. fold (mix cols share k). symmetry. apply kl_term_klz.
  exact (mix_compat cols (seq 0 rows) share t_ne (fun c k Hc _ => share_nonneg c k Hc) col k Hc Hk).
Qed.
Lemma js_range : 0 <= mb_js cols <= ln (INR (length cols)) /\
  (mb_js cols = 0 <-> forall c c' k, In c cols -> In c' cols -> (k < rows)%nat -> share c k = share c' k).
Proof.
  rewrite js_jsg. destruct (jsg_bounds cols (seq 0 rows) share t_ne (fun c k Hc _ => share_nonneg c k Hc) share_one) as [A B].
  split; [exact A|]. rewrite B. split; intros H c c' k H1 H2 H3; apply H; try assumption; [apply in_seq; lia|apply in_seq in H3; lia].
Qed.
End Table.

(** * Merging rows *)
Lemma jsg_map_c {C D K} (m : D -> C) (cs : list D) (ks : list K) x : jsg (map m cs) ks x = jsg cs ks (fun c => x (m c)).
Proof. unfold jsg, mix. rewrite map_map, map_length. apply rsum_ext. intros c _. f_equal. apply rsum_ext. intros k _. now rewrite map_map. Qed.
Lemma jsg_map_k {C K J} (h : J -> K) (cs : list C) (ks : list J) x : jsg cs (map h ks) x = jsg cs ks (fun c k => x c (h k)).
Proof. unfold jsg, mix. apply rsum_ext. intros c _. f_equal. now rewrite map_map. Qed.
Lemma jsg_ext {C K} (cs : list C) (ks : list K) x y : (forall c k, In c cs -> In k ks -> x c k = y c k) -> jsg cs ks x = jsg cs ks y.
Proof.
  intros H. unfold jsg. apply rsum_ext. intros c Hc. f_equal. apply rsum_ext. intros k Hk. rewrite (H c k Hc Hk).
  f_equal. unfold mix. apply rsum_ext. intros c' Hc'. now rewrite H.
Qed.
Lemma zsum_concat2 {A} (f : A -> Z) gs : zsum (map (fun g => zsum (map f g)) gs) = zsum (map f (concat gs)).
Proof.
  induction gs as [|g gs IH]; [reflexivity|]. cbn [map zsum concat]. rewrite IH, map_app. clear IH. generalize (map f (concat gs)). intros l.
  induction (map f g) as [|a r IH]; cbn [app zsum]; lia.
Qed.
Lemma merge_ok rows cols groups : table_ok rows cols -> concat groups = seq 0 rows -> table_ok (length groups) (merge_cols groups cols) /\
  (forall col, In col cols -> zsum (map (fun g => zsum (map (fun k => at_row k col) g)) groups) = zsum col).
Proof.
  intros Hok Hg.
  assert (S : forall col, In col cols -> zsum (map (fun g => zsum (map (fun k => at_row k col) g)) groups) = zsum col).
  { intros col Hc. rewrite zsum_concat2, Hg, <- (t_len _ _ Hok col Hc). unfold at_row. now rewrite map_nth_seq. }
  split; [|exact S]. split.
  - intros E. apply map_eq_nil in E. now apply Hok.
  - intros c Hc. apply in_map_iff in Hc as (col & <- & Hc). rewrite map_length. split; [reflexivity|]. split; [|rewrite S by exact Hc; now apply Hok].
    intros v Hv. apply in_map_iff in Hv as (g & <- & _). apply zsum_nonneg. intros z Hz. apply in_map_iff in Hz as (k & <- & _). unfold at_row.
    destruct (nth_in_or_default k col 0%Z) as [Hi| ->]; [|lia]. destruct Hok as [_ G]. destruct (G col Hc) as (_ & Hc' & _). now apply Hc'.
Qed.
Lemma js_merge rows cols groups : table_ok rows cols -> concat groups = seq 0 rows -> mb_js (merge_cols groups cols) <= mb_js cols.
Proof.
  intros Hok Hg. destruct (merge_ok rows cols groups Hok Hg) as [Hm Hs]. rewrite (js_jsg _ _ Hm), (js_jsg _ _ Hok).
  unfold merge_cols. rewrite jsg_map_c, <- Hg.
  refine (Rle_trans _ _ _ _ (jsg_merge cols groups share (t_ne _ _ Hok) (fun c k Hc _ => share_nonneg _ _ Hok c k Hc))).
  right. transitivity (jsg cols (map (fun k => nth k groups []) (seq 0 (length groups))) (fun c g => rsum (map (share c) g))); [|now rewrite map_nth_seq].
  rewrite jsg_map_k. apply jsg_ext. intros c k Hc Hk. apply in_seq in Hk.
  unfold share at 1, at_row at 1. rewrite Hs by exact Hc.
  pose proof (map_nth (fun g => zsum (map (fun k => at_row k c) g)) groups [] k) as M. cbn [map zsum] in M. rewrite M.
  unfold share. change (fun k0 => IZR (at_row k0 c) / IZR (zsum c)) with (fun k0 => IZR (at_row k0 c) * / IZR (zsum c)).
  rewrite rsum_mult, IZR_zsum, map_map. reflexivity.
Qed.

(** * Pearson's chi-square *)
Lemma rsum_pos {A} (f : A -> R) l : l <> [] -> (forall x, In x l -> 0 < f x) -> 0 < rsum (map f l).
Proof.
  intros Hn H. destruct l as [|k l]; [congruence|]. cbn [map rsum]. pose proof (H k (or_introl eq_refl)).
  assert (0 <= rsum (map f l)); [|lra]. apply rsum_nonneg. intros x Hx. apply in_map_iff in Hx as (k' & <- & Hk'). left. apply H. now right.
Qed.
Section Chi2.
Context {K C : Type}.
Variables (ks : list K) (cs : list C) (O : K -> C -> R).
Hypothesis Hpos : forall k c, In k ks -> In c cs -> 0 <= O k c.
Let Rk (k : K) : R := rsum (map (O k) cs).
Let Cc (c : C) : R := rsum (map (fun k => O k c) ks).
Let N : R := rsum (map Rk ks).
Hypothesis HR : forall k, In k ks -> 0 < Rk k.
Hypothesis HC : forall c, In c cs -> 0 < Cc c.
Hypothesis Hks : ks <> [].
Definition chi : R := rsum (map (fun k => rsum (map (fun c => (O k c - Rk k * Cc c / N) ^ 2 / (Rk k * Cc c / N)) cs)) ks).

Lemma N_pos : 0 < N.
Proof. exact (rsum_pos Rk ks Hks HR). Qed.
Lemma N_cols : rsum (map Cc cs) = N.
Proof. unfold N, Cc, Rk. apply rsum_swap. Qed.
Lemma chi_terms k c : In k ks -> In c cs -> 0 <= (O k c - Rk k * Cc c / N) ^ 2 / (Rk k * Cc c / N).
Proof.
  intros Hk Hc. pose proof (HR k Hk). pose proof (HC c Hc). pose proof N_pos.
  assert (0 < Rk k * Cc c / N) by (apply div_pos; nra). apply Rmult_le_pos; [apply pow2_ge_0|left; now apply Rinv_0_lt_compat].
Qed.
Lemma chi_nonneg : 0 <= chi.
Proof.
  unfold chi. apply rsum_nonneg. intros x Hx. apply in_map_iff in Hx as (k & <- & Hk). apply rsum_nonneg.
  intros y Hy. apply in_map_iff in Hy as (c & <- & Hc). now apply chi_terms.
Qed.
Lemma chi_zero : chi = 0 <-> forall k c, In k ks -> In c cs -> O k c * N = Rk k * Cc c.
Proof.
  assert (Q : forall k c, In k ks -> In c cs -> ((O k c - Rk k * Cc c / N) ^ 2 / (Rk k * Cc c / N) = 0 <-> O k c * N = Rk k * Cc c)).
  { intros k c Hk Hc. pose proof (HR k Hk). pose proof (HC c Hc). pose proof N_pos as NP.
    assert (E0 : 0 < Rk k * Cc c / N) by (apply div_pos; nra). split.
    - intros E. apply Rmult_integral in E as [E|E]; [|pose proof (Rinv_0_lt_compat _ E0); lra].
      apply sq_nonneg_zero in E. assert (E1 : O k c = Rk k * Cc c / N) by lra. rewrite E1. field. lra.
    - intros E. replace (O k c) with (Rk k * Cc c / N) by (rewrite <- E; field; lra). unfold Rdiv. ring. }
  unfold chi. rewrite rsum_zero_iff.
  - split.
    + intros H k c Hk Hc. apply Q; try assumption. specialize (H _ (in_map _ _ _ Hk)). cbv beta in H. rewrite rsum_zero_iff in H.
      * apply H, in_map_iff. eauto.
      * intros y Hy. apply in_map_iff in Hy as (c' & <- & Hc'). now apply chi_terms.
    + intros H x Hx. apply in_map_iff in Hx as (k & <- & Hk). apply rsum_const0. intros c Hc. apply Q; auto.
  - intros x Hx. apply in_map_iff in Hx as (k & <- & Hk). apply rsum_nonneg. intros y Hy. apply in_map_iff in Hy as (c & <- & Hc). now apply chi_terms.
Qed.
Lemma chi_expand : chi = N * rsum (map (fun k => rsum (map (fun c => O k c * O k c / (Rk k * Cc c)) cs)) ks) - N.
Proof.
  pose proof N_pos as NP. unfold chi.
  rewrite (rsum_ext (fun k => rsum (map (fun c => (O k c - Rk k * Cc c / N) ^ 2 / (Rk k * Cc c / N)) cs))
    (fun k => N * rsum (map (fun c => O k c * O k c / (Rk k * Cc c)) cs) - Rk k)).
  - rewrite rsum_minus, rsum_multl. reflexivity.
  - intros k Hk. pose proof (HR k Hk).
    rewrite (rsum_ext _ (fun c => N * (O k c * O k c / (Rk k * Cc c)) - (2 * O k c - Rk k / N * Cc c))).
    + rewrite rsum_minus, rsum_multl, rsum_minus, !rsum_multl, N_cols. fold (Rk k). field. lra.
    + intros c Hc. pose proof (HC c Hc). field. lra.
Qed.
Lemma O_le_R k c : In k ks -> In c cs -> O k c <= Rk k.
Proof. intros Hk Hc. apply (rsum_ge_term (O k) cs c); [|exact Hc]. auto. Qed.
Lemma O_le_C k c : In k ks -> In c cs -> O k c <= Cc c.
Proof. intros Hk Hc. apply (rsum_ge_term (fun k => O k c) ks k); [|exact Hk]. auto. Qed.
Lemma ratio_le a r c : 0 <= a -> a <= r -> 0 < r -> 0 < c -> a * a / (r * c) <= a / c.
Proof.
  intros. apply Rmult_le_reg_r with (r * c); [nra|].
  replace (a * a / (r * c) * (r * c)) with (a * a) by (field; lra). replace (a / c * (r * c)) with (a * r) by (field; lra). nra.
Qed.
Lemma chi_upper_c : chi <= N * (INR (length cs) - 1).
Proof.
  rewrite chi_expand. pose proof N_pos as NP.
  assert (rsum (map (fun k => rsum (map (fun c => O k c * O k c / (Rk k * Cc c)) cs)) ks) <= INR (length cs)); [|nra].
  apply Rle_trans with (rsum (map (fun k => rsum (map (fun c => O k c * / Cc c) cs)) ks)).
  - apply rsum_le. intros k Hk. apply rsum_le. intros c Hc. apply ratio_le; auto using O_le_R.
  - right. rewrite rsum_swap. rewrite (rsum_ext _ (fun _ => 1)).
    + rewrite rsum_const. ring.
    + intros c Hc. rewrite rsum_mult. fold (Cc c). field. pose proof (HC c Hc). lra.
Qed.
Lemma chi_upper_k : chi <= N * (INR (length ks) - 1).
Proof.
  rewrite chi_expand. pose proof N_pos as NP.
  assert (rsum (map (fun k => rsum (map (fun c => O k c * O k c / (Rk k * Cc c)) cs)) ks) <= INR (length ks)); [|nra].
  apply Rle_trans with (rsum (map (fun k => rsum (map (fun c => O k c * / Rk k) cs)) ks)).
  - apply rsum_le. intros k Hk. apply rsum_le. intros c Hc. rewrite (Rmult_comm (Rk k)). apply ratio_le; auto using O_le_C.
  - right. rewrite (rsum_ext _ (fun _ => 1)).
    + rewrite rsum_const. ring.
    + intros k Hk. rewrite rsum_mult. fold (Rk k). field. pose proof (HR k Hk). lra.
Qed.
End Chi2.
