From Coq Require Import List ZArith QArith Lia Bool Arith Permutation Sorting.
From Verif Require Import Model.Arr Model.Core Model.TwoD Model.TwoDCart Spec.CoreSpec Spec.TwoDSpec Spec.TwoDCartSpec Proofs.ArrP Proofs.CoreP
  Proofs.TwoDP Proofs.TwoDQ Proofs.TwoDR Proofs.TwoDT Proofs.TwoDU Proofs.TwoDCartP.
Import ListNotations.
Open Scope nat_scope.

(** * The loop *)
Definition good (m n : nat) (ok : list nat -> bool) (A p : list nat) : Prop :=
  2 <= length p /\ shape_ok m n (in_labels A p) = true /\ ok (cells_of m n (in_labels A p)) = true.
Lemma seen_path_In p seen : seen_path p seen = true <-> In p seen.
Proof.
  unfold seen_path. rewrite existsb_exists. split.
  - intros (q & Hq & E). destruct (list_eq_dec Nat.eq_dec p q); [now subst|discriminate].
  - intros H. exists p. split; [exact H|]. now destruct (list_eq_dec Nat.eq_dec p p).
Qed.
Lemma cart_loop_In m n ok nl A ws seen row : In row (cart_loop m n ok nl A ws seen) <->
  exists w, In w ws /\ ~ In (labels n nl A w) seen /\ good m n ok A (labels n nl A w) /\ row = cells_of m n (in_labels A (labels n nl A w)).
Proof.
  revert seen; induction ws as [|w0 ws IH]; intros seen; cbn [cart_loop]; [split; [intros []|intros (w & [] & _)]|]. cbv zeta.
  set (p0 := labels n nl A w0).
  assert (Gskip : forall s', (forall p, good m n ok A p -> (In p s' <-> In p seen)) -> ~ (~ In p0 seen /\ good m n ok A p0) ->
    ((exists w, In w ws /\ ~ In (labels n nl A w) s' /\ good m n ok A (labels n nl A w) /\ row = cells_of m n (in_labels A (labels n nl A w))) <->
     (exists w, In w (w0 :: ws) /\ ~ In (labels n nl A w) seen /\ good m n ok A (labels n nl A w) /\ row = cells_of m n (in_labels A (labels n nl A w))))).
  { intros s' Hs Hb. split.
    - intros (w & H1 & H2 & H3 & H4). exists w. split; [now right|]. split; [now rewrite <- (Hs _ H3)|auto].
    - intros (w & [<-|H1] & H2 & H3 & H4); [exfalso; apply Hb; auto|]. exists w. split; [exact H1|]. split; [now rewrite (Hs _ H3)|auto]. }
  assert (Gadd : ~ good m n ok A p0 -> forall p, good m n ok A p -> (In p (p0 :: seen) <-> In p seen)).
  { intros Hb p Hp. split; [intros [<-|H]; [contradiction|exact H]|intros H; now right]. }
  destruct (seen_path p0 seen) eqn:Es.
  { apply seen_path_In in Es. rewrite IH. apply Gskip; [tauto|tauto]. }
  assert (Hns : ~ In p0 seen) by (intros H; apply seen_path_In in H; congruence).
  destruct (Nat.leb_spec (length p0) 1) as [Hl|Hl].
  { assert (~ good m n ok A p0) by (intros [H _]; lia). rewrite IH. apply Gskip; [auto|tauto]. }
  destruct (shape_ok m n (in_labels A p0)) eqn:Esh.
  2:{ assert (~ good m n ok A p0) by (intros (_ & H & _); congruence). rewrite IH. apply Gskip; [auto|tauto]. }
  destruct (ok (cells_of m n (in_labels A p0))) eqn:Eok.
  2:{ rewrite IH. apply Gskip; [tauto|]. intros (_ & _ & _ & H). congruence. }
  assert (Hg : good m n ok A p0) by (split; [lia|auto]). cbn [In]. rewrite IH. split.
  - intros [<-|(w & H1 & H2 & H3 & H4)].
    + exists w0. split; [now left|]. auto.
    + exists w. split; [now right|]. split; [intros H; apply H2; now right|auto].
  - intros (w & H1 & H2 & H3 & H4). destruct (list_eq_dec Nat.eq_dec (labels n nl A w) p0) as [E|E].
    + left. rewrite H4. fold p0. now rewrite E.
    + right. destruct H1 as [<-|H1]; [now destruct E|]. exists w. split; [exact H1|]. split; [|auto]. intros [H|H]; [now apply E|contradiction].
Qed.

Section C.
Variables (m n : nat) (t : tree) (A0 : list nat) (ok : list nat -> bool).
Hypothesis Hn : 0 < n.
Hypothesis HA0 : length A0 = m * n.
Let A := aux_A m n t A0.
Let nl := length (paths t).
Lemma labels_In w b : rect_ok m n w -> (In b (labels n nl A w) <-> exists y x, in_rect w y x /\ leaf_of t x y = b).
Proof.
  intros Hw. pose proof Hw as (Hk & Hl & Hm & Hnn). unfold labels. rewrite filter_In, in_seq, existsb_exists. split.
  - intros [_ (c & Hc & E)]. apply Nat.eqb_eq in E. apply cells_In in Hc as (a & d & Ha & Hd & ->).
    exists (r_i w + a), (r_j w + d). split; [split; lia|]. rewrite <- E. symmetry. apply aux_A_nth; [exact Hn|exact HA0|lia|lia].
  - intros (y & x & Hin & <-). split.
    + unfold nl. rewrite paths_length. pose proof (leaf_of_lt t x y). lia.
    + pose proof Hin as [H1 H2]. exists (y * n + x). split; [apply (cells_In_coord m); [exact Hw|lia|exact Hin]|]. apply Nat.eqb_eq.
      apply aux_A_nth; [exact Hn|exact HA0|lia|lia].
Qed.
(** M of a window *)
Lemma M_spec w y x : rect_ok m n w -> y < m -> x < n ->
  (in_labels A (labels n nl A w) (y * n + x) = true <-> exists wy wx, in_rect w wy wx /\ leaf_of t wx wy = leaf_of t x y).
Proof.
  intros Hw Hy Hx. unfold in_labels. rewrite nmem_In. unfold A at 1. rewrite (aux_A_nth m n t A0 Hn HA0 y x Hy Hx). fold A. now apply labels_In.
Qed.
Lemma cells_of_rect (M : nat -> bool) r : rect_ok m n r -> (forall y x, y < m -> x < n -> (M (y * n + x) = true <-> in_rect r y x)) ->
  cells_of m n M = cells n r.
Proof.
  intros Hr HM. apply sorted_ext.
  - apply filter_sorted, seq_sorted.
  - apply cells_sorted. now destruct Hr as (_ & _ & _ & ?).
  - intros c. unfold cells_of. rewrite filter_In, in_seq. assert (Hx : c mod n < n) by (apply Nat.mod_upper_bound; lia).
    split.
    + intros [Hc Hm]. assert (Hy : c / n < m) by (apply Nat.div_lt_upper_bound; lia). rewrite (cell_coord n c Hn) in Hm |- *.
      apply (cells_In_coord m); [exact Hr|exact Hx|]. now apply HM.
    + intros Hc. pose proof (cells_lt m n r c Hr Hc) as Hlt. assert (Hy : c / n < m) by (apply Nat.div_lt_upper_bound; lia).
      split; [lia|]. rewrite (cell_coord n c Hn) in Hc |- *. apply (cells_In_coord m) in Hc; [|exact Hr|exact Hx]. now apply HM.
Qed.
Lemma labels_two w : rect_ok m n w -> (2 <= length (labels n nl A w) <-> several_leaves t w).
Proof.
  intros Hw. assert (Hnd : NoDup (labels n nl A w)) by apply NoDup_filter, seq_NoDup. split.
  - intros H. destruct (labels n nl A w) as [|a [|b l]] eqn:E; cbn [length] in H; try lia.
    assert (Ha : In a (labels n nl A w)) by (rewrite E; now left). assert (Hb : In b (labels n nl A w)) by (rewrite E; right; now left).
    apply (labels_In w a Hw) in Ha as (y & x & Hin & <-). apply (labels_In w b Hw) in Hb as (y' & x' & Hin' & <-).
    exists y, x, y', x'. split; [exact Hin|]. split; [exact Hin'|]. intros He. inversion Hnd as [|? ? Hni _]. apply Hni. left. now symmetry.
  - intros (y & x & y' & x' & H1 & H2 & Hne).
    assert (Ha : In (leaf_of t x y) (labels n nl A w)) by (apply labels_In; eauto).
    assert (Hb : In (leaf_of t x' y') (labels n nl A w)) by (apply labels_In; eauto).
    assert (Hn2 : NoDup [leaf_of t x y; leaf_of t x' y']) by (constructor; [cbn; intuition|constructor; [cbn; tauto|constructor]]).
    apply (NoDup_incl_length Hn2). intros z [<-|[<-|[]]]; assumption.
Qed.
Lemma filter_nothing {B} (p : B -> bool) l : (forall x, In x l -> p x = false) -> filter p l = [].
Proof. induction l as [|a l IH]; intros H; [reflexivity|]. cbn [filter]. rewrite (H a (or_introl eq_refl)). apply IH. intros x Hx. apply H. now right. Qed.
Lemma bool_iff_eq (a b : bool) : (a = true <-> b = true) -> a = b.
Proof. destruct a, b; intuition congruence. Qed.
Lemma shape_rect (M : nat -> bool) r : rect_ok m n r -> (forall y x, y < m -> x < n -> (M (y * n + x) = true <-> in_rect r y x)) -> shape_ok m n M = true.
Proof.
  intros (Hk & Hl & Hm & Hnn) HM. unfold shape_ok. apply andb_true_iff. split.
  - apply (two_values_of _ (length (filter (fun y => M (y * n + r_j r)) (seq 0 m)))). intros a Ha. unfold col_sums in Ha.
    apply in_map_iff in Ha as (x & <- & Hx). apply in_seq in Hx.
    destruct (Nat.le_gt_cases (r_j r) x) as [H1|H1]; [destruct (Nat.lt_ge_cases x (r_j r + r_l r)) as [H2|H2]|].
    + right. f_equal. apply filter_ext_len. intros y Hy. apply in_seq in Hy. apply bool_iff_eq. rewrite !HM by lia. unfold in_rect. lia.
    + left. rewrite filter_nothing; [reflexivity|]. intros y Hy. apply in_seq in Hy. apply not_true_is_false. rewrite HM by lia. unfold in_rect. lia.
    + left. rewrite filter_nothing; [reflexivity|]. intros y Hy. apply in_seq in Hy. apply not_true_is_false. rewrite HM by lia. unfold in_rect. lia.
  - apply (two_values_of _ (length (filter (fun x => M (r_i r * n + x)) (seq 0 n)))). intros a Ha. unfold row_sums in Ha.
    apply in_map_iff in Ha as (y & <- & Hy). apply in_seq in Hy.
    destruct (Nat.le_gt_cases (r_i r) y) as [H1|H1]; [destruct (Nat.lt_ge_cases y (r_i r + r_k r)) as [H2|H2]|].
    + right. f_equal. apply filter_ext_len. intros x Hx. apply in_seq in Hx. apply bool_iff_eq. rewrite !HM by lia. unfold in_rect. lia.
    + left. rewrite filter_nothing; [reflexivity|]. intros x Hx. apply in_seq in Hx. apply not_true_is_false. rewrite HM by lia. unfold in_rect. lia.
    + left. rewrite filter_nothing; [reflexivity|]. intros x Hx. apply in_seq in Hx. apply not_true_is_false. rewrite HM by lia. unfold in_rect. lia.
Qed.
Lemma shape_is_rect w : rect_ok m n w -> shape_ok m n (in_labels A (labels n nl A w)) = true ->
  exists r, rect_ok m n r /\ forall y x, y < m -> x < n -> (in_labels A (labels n nl A w) (y * n + x) = true <-> in_rect r y x).
Proof.
  intros Hw Hs. pose proof Hw as (Hk & Hl & Hm & Hnn). set (M := in_labels A (labels n nl A w)) in *. unfold shape_ok in Hs. apply andb_true_iff in Hs as [Hc Hr].
  apply (is_rect m n (fun y x => M (y * n + x)) w Hw).
  - intros y x Hin. pose proof Hin as [H1 H2]. apply M_spec; [exact Hw|lia|lia|]. eauto.
  - intros y x Hy Hx HM. apply (M_spec w y x Hw Hy Hx) in HM as (wy & wx & Hin & E). exists wy, wx. split; [exact Hin|].
    intros y' x' Hy' Hx'. pose proof Hin as [H1 H2]. apply M_spec; [exact Hw|lia|lia|]. exists wy, wx. split; [exact Hin|].
    symmetry. apply (leaf_convex t wx wy x y x' y' E); lia.
  - intros y y' Hy Hy' H1 H2. apply (two_values_eq _ _ _ Hr); [| |exact H1|exact H2]; unfold row_sums;
      apply in_map_iff; [exists y|exists y']; (split; [reflexivity|apply in_seq; lia]).
  - intros x x' Hx Hx' H1 H2. apply (two_values_eq _ _ _ Hc); [| |exact H1|exact H2]; unfold col_sums;
      apply in_map_iff; [exists x|exists x']; (split; [reflexivity|apply in_seq; lia]).
Qed.

Lemma cart_rows_In row : In row (cart_rows m n t A0 ok) <-> exists r, candidate m n t ok r /\ row = cells n r.
Proof.
  unfold cart_rows. rewrite cart_loop_In. fold nl A. split.
  - intros (w & Hw & _ & (H2 & Hs & Hok) & ->). apply all_rects_In in Hw. destruct (shape_is_rect w Hw Hs) as (r & Hr & HM).
    assert (E := cells_of_rect _ r Hr HM). rewrite E in *. exists r. split; [|reflexivity].
    pose proof Hr as (R1 & R2 & R3 & R4). pose proof Hw as (W1 & W2 & W3 & W4). split; [exact Hr|]. split; [|split; [|exact Hok]].
    + intros y x y' x' Hy' Hx' Hin Hl. apply (HM y' x' Hy' Hx'). apply (M_spec w y' x' Hw Hy' Hx').
      pose proof Hin as [I1 I2]. apply (HM y x) in Hin; [|lia|lia]. apply (M_spec w y x Hw) in Hin as (wy & wx & Hi & E'); [|lia|lia].
      exists wy, wx. split; [exact Hi|congruence].
    + apply (labels_two w Hw) in H2 as (y & x & y' & x' & I1 & I2 & Hne). exists y, x, y', x'.
      assert (G : forall y x, in_rect w y x -> in_rect r y x).
      { intros y0 x0 Hi. pose proof Hi as [J1 J2]. apply HM; [lia|lia|]. apply (M_spec w y0 x0 Hw); [lia|lia|]. eauto. }
      auto.
  - intros (r & (Hr & Hwl & Hsv & Hok) & ->). pose proof Hr as (R1 & R2 & R3 & R4).
    assert (HM : forall y x, y < m -> x < n -> (in_labels A (labels n nl A r) (y * n + x) = true <-> in_rect r y x)).
    { intros y x Hy Hx. rewrite (M_spec r y x Hr Hy Hx). split.
      - intros (wy & wx & Hi & E). apply (Hwl wy wx y x Hy Hx Hi). now symmetry.
      - intros Hi. eauto. }
    assert (E := cells_of_rect _ r Hr HM). exists r. split; [now apply all_rects_In|]. split; [intros []|]. split; [|now symmetry].
    split; [now apply labels_two|]. split; [now apply (shape_rect _ r Hr)|now rewrite E].
Qed.
Lemma cart_rects : exists rs, cart_rows m n t A0 ok = map (cells n) rs /\ forall r, In r rs -> candidate m n t ok r.
Proof.
  assert (G : forall rows, (forall row, In row rows -> exists r, candidate m n t ok r /\ row = cells n r) ->
    exists rs, rows = map (cells n) rs /\ forall r, In r rs -> candidate m n t ok r).
  { induction rows as [|row rows IH]; intros H; [exists []; split; [reflexivity|intros r []]|].
    destruct (H row (or_introl eq_refl)) as (r & Hr & ->). destruct IH as (rs & -> & Hrs); [intros row' Hrow'; apply H; now right|].
    exists (r :: rs). split; [reflexivity|]. intros r' [<-|Hr']; auto. }
  apply G. intros row. apply cart_rows_In.
Qed.
(** * No candidate twice *)
Lemma good_labels w : rect_ok m n w -> labels n nl A w = filter (fun b => existsb (fun c => Nat.eqb (nth c A 0) b) (cells_of m n (in_labels A (labels n nl A w)))) (seq 0 nl).
Proof.
  intros Hw. pose proof Hw as (Hk & Hl & Hm & Hnn). apply sorted_ext; [apply filter_sorted, seq_sorted|apply filter_sorted, seq_sorted|].
  intros b. rewrite filter_In, existsb_exists. split.
  - intros Hb. split; [unfold labels in Hb; now apply filter_In in Hb|]. pose proof Hb as Hb'. apply (labels_In w b Hw) in Hb' as (y & x & Hin & <-).
    pose proof Hin as [H1 H2]. exists (y * n + x). split.
    + unfold cells_of. rewrite filter_In, in_seq. split; [nia|]. apply (M_spec w y x Hw); [lia|lia|]. eauto.
    + apply Nat.eqb_eq. apply aux_A_nth; [exact Hn|exact HA0|lia|lia].
  - intros [Hb (c & Hc & E)]. apply Nat.eqb_eq in E. unfold cells_of in Hc. apply filter_In in Hc as [_ Hc]. unfold in_labels in Hc. rewrite E in Hc. now apply nmem_In.
Qed.
Lemma cart_loop_NoDup ws seen : (forall w, In w ws -> rect_ok m n w) -> NoDup (cart_loop m n ok nl A ws seen).
Proof.
  revert seen; induction ws as [|w0 ws IH]; intros seen Hws; cbn [cart_loop]; [constructor|]. cbv zeta.
  assert (Hws' : forall w, In w ws -> rect_ok m n w) by (intros; apply Hws; now right).
  destruct (seen_path _ _); [now apply IH|]. destruct (_ <=? 1); [now apply IH|]. destruct (shape_ok _ _ _); [|now apply IH].
  destruct (ok _); [|now apply IH]. constructor; [|now apply IH].
  intros H. apply cart_loop_In in H as (w & Hw & Hns & _ & E). apply Hns. left.
  rewrite (good_labels w0) by (apply Hws; now left). rewrite (good_labels w) by now apply Hws'. now rewrite E.
Qed.
Lemma cart_rows_NoDup : NoDup (cart_rows m n t A0 ok).
Proof. apply cart_loop_NoDup. intros w. apply all_rects_In. Qed.
End C.
