From Coq Require Import List ZArith QArith Lia Bool Arith Permutation Sorting.
From Verif Require Import Model.Arr Model.Core Model.TwoD Model.TwoDCart Spec.CoreSpec Spec.TwoDSpec Spec.TwoDCartSpec Proofs.ArrP Proofs.CoreP
  Proofs.TwoDP Proofs.TwoDQ Proofs.TwoDR Proofs.TwoDT Proofs.TwoDU.
Import ListNotations.
Open Scope nat_scope.

Lemma grid_coords n y x : x < n -> (y * n + x) / n = y /\ (y * n + x) mod n = x.
Proof.
  intros H. split.
  - rewrite Nat.div_add_l by lia. rewrite Nat.div_small by lia. lia.
  - rewrite Nat.add_comm, Nat.mod_add by lia. now apply Nat.mod_small.
Qed.
(** * Leaves *)
Lemma paths_length t : length (paths t) = n_leaves t.
Proof. induction t as [|f thr l IHl r IHr]; [reflexivity|]. cbn [paths n_leaves]. now rewrite app_length, !map_length, IHl, IHr. Qed.
Lemma leaf_of_lt t x y : leaf_of t x y < n_leaves t.
Proof. induction t as [|f thr l IHl r IHr]; cbn [leaf_of n_leaves]; [lia|]. destruct (_ <=? _)%Z; lia. Qed.
Lemma mask_cons s p x y : mask_x (s :: p) x && mask_y (s :: p) y = step_ok s x y && (mask_x p x && mask_y p y).
Proof.
  unfold mask_x, mask_y. cbn [forallb]. generalize (forallb (fun s0 : bool * bool * Z => if fst (fst s0) then step_ok s0 x 0 else true) p).
  generalize (forallb (fun s0 : bool * bool * Z => if fst (fst s0) then true else step_ok s0 0 y) p). intros u v.
  destruct s as [[[] le] thr]; unfold step_ok; cbn [fst snd]; generalize (if le then (Z.of_nat x <=? thr)%Z else (thr <? Z.of_nat x)%Z) (if le then (Z.of_nat y <=? thr)%Z else (thr <? Z.of_nat y)%Z); intros [] []; destruct u, v; reflexivity.
Qed.
Lemma path_at t b p x y : nth_error (paths t) b = Some p -> (mask_x p x && mask_y p y = true <-> b = leaf_of t x y).
Proof.
  revert b p; induction t as [|f thr l IHl r IHr]; intros b p H; cbn [paths leaf_of] in *.
  - destruct b as [|b]; [|destruct b; discriminate]. injection H as <-. cbn. tauto.
  - destruct (Nat.lt_ge_cases b (n_leaves l)) as [Hb|Hb].
    + rewrite nth_error_app1 in H by (now rewrite map_length, paths_length). rewrite nth_error_map in H.
      destruct (nth_error (paths l) b) as [p0|] eqn:E; [|discriminate]. injection H as <-. rewrite mask_cons, andb_true_iff, (IHl b p0 E).
      unfold step_ok. cbn [fst snd]. destruct (_ <=? _)%Z eqn:Et; [tauto|]. split; [intros [? _]; discriminate|]. lia.
    + rewrite nth_error_app2 in H by (now rewrite map_length, paths_length). rewrite map_length, paths_length, nth_error_map in H.
      destruct (nth_error (paths r) (b - n_leaves l)) as [p0|] eqn:E; [|discriminate]. injection H as <-. rewrite mask_cons, andb_true_iff, (IHr _ p0 E).
      unfold step_ok. cbn [fst snd]. pose proof (leaf_of_lt l x y). destruct (Z.leb_spec (Z.of_nat (if f then x else y)) thr); rewrite Z.ltb_lt; lia.
Qed.
Lemma leaf_convex t x y x1 y1 x2 y2 : leaf_of t x y = leaf_of t x1 y1 ->
  Nat.min x x1 <= x2 <= Nat.max x x1 -> Nat.min y y1 <= y2 <= Nat.max y y1 -> leaf_of t x2 y2 = leaf_of t x y.
Proof.
  intros H Hx Hy. induction t as [|f thr l IHl r IHr]; [reflexivity|]. cbn [leaf_of] in *.
  pose proof (leaf_of_lt l x y). pose proof (leaf_of_lt l x1 y1).
  destruct (Z.leb_spec (Z.of_nat (if f then x else y)) thr) as [T1|T1], (Z.leb_spec (Z.of_nat (if f then x1 else y1)) thr) as [T2|T2]; try lia.
  - assert (H3 : (Z.of_nat (if f then x2 else y2) <= thr)%Z) by (destruct f; lia). apply Z.leb_le in H3. rewrite H3. now apply IHl.
  - assert (H3 : (thr < Z.of_nat (if f then x2 else y2))%Z) by (destruct f; lia). apply Z.leb_gt in H3. rewrite H3. f_equal. apply IHr. lia.
Qed.
Section A.
Variables (m n : nat) (t : tree) (A0 : list nat).
Hypothesis Hn : 0 < n.
Hypothesis HA0 : length A0 = m * n.
Lemma aux_A_nth y x : y < m -> x < n -> nth (y * n + x) (aux_A m n t A0) 0 = leaf_of t x y.
Proof.
  intros Hy Hx. assert (Hc : y * n + x < m * n) by nia. destruct (grid_coords n y x Hx) as [Ed Em].
  assert (G : forall b p, nth_error (paths t) b = Some p -> (In (y * n + x) (leaf_cells m n p) <-> b = leaf_of t x y)).
  { intros b p Hp. unfold leaf_cells. rewrite filter_In, in_seq, Em, Ed, (path_at t b p x y Hp). intuition lia. }
  pose proof (leaf_of_lt t x y) as Hlt. rewrite <- paths_length in Hlt.
  destruct (nth_error (paths t) (leaf_of t x y)) as [p|] eqn:Ep; [|apply nth_error_None in Ep; lia].
  unfold aux_A. rewrite (assign_nth 0 _ _ _ (leaf_of t x y) (leaf_cells m n p)); [reflexivity|lia| | |].
  - rewrite nth_error_map, Ep. reflexivity.
  - now apply (G _ _ Ep).
  - intros b' row' Hb' Hin. rewrite nth_error_map in Hb'. destruct (nth_error (paths t) b') as [p'|] eqn:Ep'; [|discriminate].
    injection Hb' as <-. now apply (G _ _ Ep').
Qed.
End A.

(** * Sorted lists *)
Lemma sorted_ext (l1 l2 : list nat) : StronglySorted lt l1 -> StronglySorted lt l2 -> (forall c, In c l1 <-> In c l2) -> l1 = l2.
Proof.
  intros H1. revert l2; induction H1 as [|a l1 H1 IH Ha]; intros l2 H2 Hin.
  - destruct l2 as [|b l2]; [reflexivity|]. destruct (proj2 (Hin b)). now left.
  - destruct H2 as [|b l2 H2 Hb]; [destruct (proj1 (Hin a)); now left|].
    rewrite Forall_forall in Ha, Hb.
    assert (a = b).
    { destruct (proj1 (Hin a) (or_introl eq_refl)) as [E|E]; [now symmetry|]. destruct (proj2 (Hin b) (or_introl eq_refl)) as [E'|E']; [assumption|].
      specialize (Ha b E'). specialize (Hb a E). lia. }
    subst b. f_equal. apply IH; [exact H2|]. intros c. split; intros Hc.
    + destruct (proj1 (Hin c) (or_intror Hc)) as [E|E]; [subst c; specialize (Ha a Hc); lia|exact E].
    + destruct (proj2 (Hin c) (or_intror Hc)) as [E|E]; [subst c; specialize (Hb a Hc); lia|exact E].
Qed.
Lemma seq_sorted s k : StronglySorted lt (seq s k).
Proof. revert s; induction k as [|k IH]; intros s; cbn [seq]; constructor; [apply IH|]. apply Forall_forall. intros x Hx. apply in_seq in Hx. lia. Qed.
Lemma filter_sorted p l : StronglySorted lt l -> StronglySorted lt (filter p l).
Proof.
  induction 1 as [|a l H IH Ha]; cbn [filter]; [constructor|]. destruct (p a); [|exact IH]. constructor; [exact IH|].
  rewrite Forall_forall in *. intros x Hx. apply filter_In in Hx as [Hx _]. auto.
Qed.
Lemma app_sorted l1 l2 : StronglySorted lt l1 -> StronglySorted lt l2 -> (forall a b, In a l1 -> In b l2 -> a < b) -> StronglySorted lt (l1 ++ l2).
Proof.
  induction 1 as [|a l1 H IH Ha]; intros H2 Hlt; cbn [app]; [exact H2|]. constructor; [apply IH; [exact H2|intros; apply Hlt; [now right|assumption]]|].
  apply Forall_forall. intros x Hx. apply in_app_or in Hx as [Hx|Hx]; [rewrite Forall_forall in Ha; auto|]. apply Hlt; [now left|exact Hx].
Qed.
Lemma cells_sorted n r : r_j r + r_l r <= n -> StronglySorted lt (cells n r).
Proof.
  intros Hn. rewrite cells_eq.
  assert (G : forall k s, StronglySorted lt (flat_map (fun a => map (fun b => (r_i r + a) * n + (r_j r + b)) (seq 0 (r_l r))) (seq s k))); [|apply G].
  induction k as [|k IH]; intros s; cbn [seq flat_map]; [constructor|]. apply app_sorted; [|apply IH|].
  - generalize (r_l r) 0. intros q. induction q as [|q IHq]; intros s0; cbn [seq map]; constructor; [apply IHq|].
    apply Forall_forall. intros x Hx. apply in_map_iff in Hx as (b & <- & Hb). apply in_seq in Hb. lia.
  - intros a b Ha Hb. apply in_map_iff in Ha as (c & <- & Hc). apply in_seq in Hc. apply in_flat_map in Hb as (d & Hd & Hb).
    apply in_map_iff in Hb as (e & <- & He). apply in_seq in Hd, He. nia.
Qed.
Lemma last_sorted_In (l : list nat) d : l <> [] -> In (last l d) l.
Proof.
  intros H. destruct (exists_last H) as (l' & a & ->). rewrite last_last. apply in_or_app. right. now left.
Qed.

(** * Two values *)
Lemma two_values_eq l a b : two_values l = true -> In a l -> In b l -> a <> 0 -> b <> 0 -> a = b.
Proof.
  unfold two_values. intros H Ha Hb Ha0 Hb0. apply Nat.leb_le in H. destruct (Nat.eq_dec a b) as [E|E]; [exact E|]. exfalso.
  assert (Hnd : NoDup [0; a; b]) by (constructor; [cbn; intuition|constructor; [cbn; intuition|constructor; [cbn; intuition|constructor]]]).
  assert (Hin : incl [0; a; b] (nodup Nat.eq_dec (l ++ [0]))).
  { intros x Hx. apply nodup_In, in_or_app. cbn in Hx. destruct Hx as [<-|[<-|[<-|[]]]]; [right; now left|now left|now left]. }
  pose proof (NoDup_incl_length Hnd Hin). cbn [length] in *. lia.
Qed.
Lemma two_values_of l s : (forall a, In a l -> a = 0 \/ a = s) -> two_values l = true.
Proof.
  intros H. unfold two_values. apply Nat.leb_le.
  assert (Hin : incl (nodup Nat.eq_dec (l ++ [0])) [0; s]).
  { intros x Hx. apply nodup_In, in_app_or in Hx. destruct Hx as [Hx|[<-|[]]]; [|now left]. destruct (H x Hx) as [->| ->]; [now left|right; now left]. }
  exact (NoDup_incl_length (NoDup_nodup _ _) Hin).
Qed.

(** * Intervals *)
Lemma interval_down (P : nat -> bool) i0 : P i0 = true -> (forall y y', y <= y' -> y' <= i0 -> P y = true -> P y' = true) ->
  exists a, a <= i0 /\ forall y, y <= i0 -> (P y = true <-> a <= y).
Proof.
  induction i0 as [|i0 IH]; intros H0 Hc.
  - exists 0. split; [lia|]. intros y Hy. assert (y = 0) by lia. subst. tauto.
  - destruct (P i0) eqn:E.
    + destruct (IH eq_refl) as (a & Ha & HP); [intros y y' H1 H2; apply Hc; lia|]. exists a. split; [lia|]. intros y Hy.
      destruct (Nat.eq_dec y (S i0)) as [->|Hne]; [split; [lia|auto]|]. apply HP. lia.
    + exists (S i0). split; [lia|]. intros y Hy. destruct (Nat.eq_dec y (S i0)) as [->|Hne]; [tauto|]. split; [|lia].
      intros Hp. rewrite (Hc y i0) in E; [discriminate|lia|lia|exact Hp].
Qed.
Lemma interval_up (P : nat -> bool) i0 m : i0 < m -> P i0 = true -> (forall y y', i0 <= y' -> y' <= y -> y < m -> P y = true -> P y' = true) ->
  exists b, i0 < b <= m /\ forall y, i0 <= y < m -> (P y = true <-> y < b).
Proof.
  intros Hm H0. induction m as [|m IH]; intros Hc; [lia|]. destruct (Nat.eq_dec i0 m) as [->|Hne].
  - exists (S m). split; [lia|]. intros y Hy. assert (y = m) by lia. subst. intuition lia.
  - destruct (IH ltac:(lia)) as (b & Hb & HP); [intros y y' H1 H2 H3; apply Hc; lia|].
    destruct (P m) eqn:E.
    + exists (S m). split; [lia|]. intros y Hy. split; [lia|]. intros _. apply (Hc m y); try lia; assumption.
    + exists b. split; [lia|]. intros y Hy. destruct (Nat.eq_dec y m) as [->|]; [|apply HP; lia].
      rewrite E. split; [discriminate|]. intros Hlt. lia.
Qed.
Lemma interval (P : nat -> bool) i0 m : i0 < m -> P i0 = true ->
  (forall y y', y < m -> Nat.min y i0 <= y' <= Nat.max y i0 -> P y = true -> P y' = true) ->
  exists a len, 1 <= len /\ a + len <= m /\ forall y, y < m -> (P y = true <-> a <= y < a + len).
Proof.
  intros Hm H0 Hc. destruct (interval_down P i0 H0) as (a & Ha & HA); [intros y y' H1 H2; apply Hc; lia|].
  destruct (interval_up P i0 m Hm H0) as (b & Hb & HB); [intros y y' H1 H2 H3; apply Hc; lia|].
  exists a, (b - a). split; [lia|]. split; [lia|]. intros y Hy. replace (a + (b - a)) with b by lia.
  destruct (Nat.le_gt_cases y i0) as [Hle|Hgt]; [rewrite (HA y Hle); lia|]. rewrite (HB y ltac:(lia)). lia.
Qed.

(** * Equal column sums and equal row sums around a window: a rectangle *)
Section Product.
Variables (m n : nat) (M : nat -> nat -> bool) (w : rect).
Hypothesis Hw : rect_ok m n w.
Hypothesis Hwin : forall y x, in_rect w y x -> M y x = true.
Hypothesis Hconv : forall y x, y < m -> x < n -> M y x = true -> exists wy wx, in_rect w wy wx /\
  forall y' x', Nat.min y wy <= y' <= Nat.max y wy -> Nat.min x wx <= x' <= Nat.max x wx -> M y' x' = true.
Let rowset (y : nat) := filter (M y) (seq 0 n).
Let colset (x : nat) := filter (fun y => M y x) (seq 0 m).
Hypothesis Hrow : forall y y', y < m -> y' < m -> length (rowset y) <> 0 -> length (rowset y') <> 0 -> length (rowset y) = length (rowset y').
Hypothesis Hcol : forall x x', x < n -> x' < n -> length (colset x) <> 0 -> length (colset x') <> 0 -> length (colset x) = length (colset x').
Lemma rowset_In y x : In x (rowset y) <-> x < n /\ M y x = true.
Proof. unfold rowset. rewrite filter_In, in_seq. intuition lia. Qed.
Lemma colset_In y x : In y (colset x) <-> y < m /\ M y x = true.
Proof. unfold colset. rewrite filter_In, in_seq. intuition lia. Qed.
Lemma nonempty {A} (l : list A) a : In a l -> length l <> 0.
Proof. destruct l; [intros []|discriminate]. Qed.
Lemma rowset_sub y y0 x : y < m -> y0 < m -> x < n -> M y x = true -> incl (rowset y) (rowset y0) -> incl (rowset y0) (rowset y).
Proof.
  intros Hy Hy0 Hx HM Hi. apply NoDup_length_incl; [apply NoDup_filter, seq_NoDup| |exact Hi].
  assert (In x (rowset y)) by (apply rowset_In; auto).
  assert (E : length (rowset y) = length (rowset y0)); [|lia].
  apply Hrow; [exact Hy|exact Hy0|eapply nonempty; eauto|eapply nonempty; apply Hi; eauto].
Qed.
Lemma full_row y x x' : y < m -> x < n -> M y x = true -> r_j w <= x' < r_j w + r_l w -> M y x' = true.
Proof.
  intros Hy Hx HM Hx'. destruct Hw as (Hk & Hl & Hm & Hnn).
  assert (G : forall y0, r_i w <= y0 < r_i w + r_k w ->
    (forall wy, r_i w <= wy < r_i w + r_k w -> Nat.min y wy <= y0 <= Nat.max y wy) -> M y x' = true).
  { intros y0 Hy0 Hb. assert (Hin : incl (rowset y) (rowset y0)).
    { intros z Hz. apply rowset_In in Hz as [Hz HMz]. apply rowset_In. split; [exact Hz|].
      destruct (Hconv y z Hy Hz HMz) as (wy & wx & [W1 W2] & HC). apply HC; [now apply Hb|lia]. }
    assert (Hin' : incl (rowset y0) (rowset y)) by (apply (rowset_sub y y0 x); try assumption; lia).
    apply (rowset_In y x'). apply Hin'. apply rowset_In. split; [lia|]. apply Hwin. split; lia. }
  destruct (Nat.lt_ge_cases y (r_i w)) as [H1|H1]; [apply (G (r_i w)); intros; lia|].
  destruct (Nat.lt_ge_cases y (r_i w + r_k w)) as [H2|H2]; [apply Hwin; split; lia|].
  apply (G (r_i w + r_k w - 1)); intros; lia.
Qed.
Lemma product y x : y < m -> x < n -> (M y x = true <-> M y (r_j w) = true /\ M (r_i w) x = true).
Proof.
  intros Hy Hx. destruct Hw as (Hk & Hl & Hm & Hnn).
  assert (Hsub : forall x y0, x < n -> y0 < m -> M y0 x = true -> incl (colset (r_j w)) (colset x)).
  { intros x1 y0 Hx1 Hy0 HM. apply NoDup_length_incl; [apply NoDup_filter, seq_NoDup| |].
    - assert (In y0 (colset x1)) by (apply colset_In; auto).
      assert (In (r_i w) (colset (r_j w))) by (apply colset_In; split; [lia|apply Hwin; split; lia]).
      assert (E : length (colset x1) = length (colset (r_j w))); [|lia].
      apply Hcol; [exact Hx1|lia|eapply nonempty; eauto|eapply nonempty; eauto].
    - intros z Hz. apply colset_In in Hz as [Hz HMz]. apply colset_In. split; [exact Hz|]. apply (full_row z x1); try assumption; lia. }
  split.
  - intros HM. split; [apply (full_row y x); try assumption; lia|].
    apply (colset_In (r_i w) x). apply (Hsub x y Hx Hy HM). apply colset_In. split; [lia|apply Hwin; split; lia].
  - intros [H1 H2]. apply (colset_In y x). apply (Hsub x (r_i w) Hx ltac:(lia) H2). apply colset_In. auto.
Qed.
Lemma is_rect : exists r, rect_ok m n r /\ forall y x, y < m -> x < n -> (M y x = true <-> in_rect r y x).
Proof.
  pose proof Hw as (Hk & Hl & Hm & Hnn).
  destruct (interval (fun y => M y (r_j w)) (r_i w) m) as (a & la & A1 & A2 & A3); [lia|apply Hwin; split; lia| |].
  { intros y y' Hy Hb HM. destruct (Hconv y (r_j w) Hy ltac:(lia) HM) as (wy & wx & [W1 W2] & HC).
    destruct (Nat.le_gt_cases (Nat.min y wy) y') as [H1|H1], (Nat.le_gt_cases y' (Nat.max y wy)) as [H2|H2]; first [lia|apply HC; lia|apply Hwin; split; lia]. }
  destruct (interval (fun x => M (r_i w) x) (r_j w) n) as (b & lb & B1 & B2 & B3); [lia|apply Hwin; split; lia| |].
  { intros x x' Hx Hb HM. destruct (Hconv (r_i w) x ltac:(lia) Hx HM) as (wy & wx & [W1 W2] & HC).
    destruct (Nat.le_gt_cases (Nat.min x wx) x') as [H1|H1], (Nat.le_gt_cases x' (Nat.max x wx)) as [H2|H2]; first [lia|apply HC; lia|apply Hwin; split; lia]. }
  exists (mkRect a b la lb). split; [unfold rect_ok; cbn; lia|]. intros y x Hy Hx.
  rewrite (product y x Hy Hx), (A3 y Hy), (B3 x Hx). unfold in_rect. cbn. tauto.
Qed.
End Product.
