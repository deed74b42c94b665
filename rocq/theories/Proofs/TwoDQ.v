From Coq Require Import List ZArith QArith Lia Bool Arith Permutation.
From Verif Require Import Model.Arr Model.Core Model.TwoD Spec.CoreSpec Spec.TwoDSpec Proofs.ArrP Proofs.CoreP Proofs.TwoDP.
Import ListNotations.
Open Scope nat_scope.

(** * From the unique-assignment constraint to a tiling *)
Lemma sol_tiling_gen m n (rs : list rect) sol : (forall r, In r rs -> rect_ok m n r) -> 0 < n -> length sol = length rs ->
  unique_assignment2 (m * n) (map (cells n) rs) sol -> tiling m n (select sol rs).
Proof.
  intros Hok Hn Hlen HU.
  assert (HND : forall row, In row (map (cells n) rs) -> NoDup row).
  { intros row Hr. apply in_map_iff in Hr as (r & <- & Hr). apply (cells_NoDup m). now apply Hok. }
  split; [intros r Hr; apply Hok; eapply select_In'; eauto|].
  intros y x Hy Hx. assert (Hc : y * n + x < m * n) by nia.
  specialize (HU _ Hc). apply xsum2_one in HU; [|now apply NoDup_cols].
  destruct HU as (t & Ht & Hs & Hu). apply cols_In in Ht as (row & Hrow & Hin).
  rewrite nth_error_map in Hrow. destruct (nth_error rs t) as [r|] eqn:Er; [|discriminate]. injection Hrow as <-.
  assert (Hst : nth_error sol t = Some true).
  { rewrite <- Hs. apply nth_error_nth'. rewrite Hlen. apply nth_error_Some. congruence. }
  exists (count_true (firstn t sol)), r. split; [apply select_nth; eauto|]. split.
  - apply (cells_In_coord m n); [apply Hok; eapply nth_error_In; eauto|exact Hx|exact Hin].
  - intros b' r' Hb' Hin'. apply select_nth in Hb' as (u & Hu1 & Hu2 & <-).
    assert (u = t); [|now subst]. apply Hu.
    + apply cols_In. exists (cells n r'). split; [rewrite nth_error_map, Hu2; reflexivity|].
      apply (cells_In_coord m n); [apply Hok; eapply nth_error_In; eauto|exact Hx|exact Hin'].
    + now apply nth_error_nth.
Qed.
Lemma sol_tiling m n ok sol : 0 < n -> length sol = length (rects_of m n ok) ->
  unique_assignment2 (m * n) (map (cells n) (rects_of m n ok)) sol -> tiling m n (select sol (rects_of m n ok)).
Proof. apply sol_tiling_gen. intros r Hr. now apply rects_of_In in Hr as [? _]. Qed.

(** * The matrix P *)
Lemma set_cell_length v P c : length (set_cell v P c) = length P.
Proof. unfold set_cell. now rewrite map_length, seq_length. Qed.
Lemma set_cell_nth v P c k : k < length P -> nth k (set_cell v P c) 0 = if Nat.eqb k c then v else nth k P 0.
Proof.
  intros H. unfold set_cell. erewrite nth_error_nth; [reflexivity|]. rewrite nth_error_map, nth_error_seq0 by exact H. reflexivity.
Qed.
Lemma set_cells_length v row P : length (set_cells v row P) = length P.
Proof. unfold set_cells. revert P; induction row as [|c row IH]; intros P; cbn [fold_left]; [reflexivity|]. now rewrite IH, set_cell_length. Qed.
Lemma set_cells_nth v row P k : k < length P -> nth k (set_cells v row P) 0 = if nmem k row then v else nth k P 0.
Proof.
  unfold set_cells. revert P; induction row as [|c row IH]; intros P H; cbn [fold_left nmem existsb]; [reflexivity|]. fold (nmem k row).
  rewrite IH by (now rewrite set_cell_length). rewrite set_cell_nth by exact H.
  destruct (Nat.eqb k c); cbn [orb]; destruct (nmem k row); reflexivity.
Qed.
Lemma assign_length i sel P : length (assign i sel P) = length P.
Proof. revert i P; induction sel as [|row sel IH]; intros i P; cbn [assign]; [reflexivity|]. now rewrite IH, set_cells_length. Qed.
Lemma assign_none i sel P k : k < length P -> (forall row, In row sel -> ~ In k row) -> nth k (assign i sel P) 0 = nth k P 0.
Proof.
  revert i P; induction sel as [|row sel IH]; intros i P H Hno; cbn [assign]; [reflexivity|].
  rewrite IH by (try rewrite set_cells_length; auto using in_cons). rewrite set_cells_nth by exact H.
  destruct (nmem k row) eqn:E; [|reflexivity]. apply nmem_In in E. exfalso. apply (Hno row); [now left|exact E].
Qed.
Lemma assign_nth i sel P k b row : k < length P -> nth_error sel b = Some row -> In k row ->
  (forall b' row', nth_error sel b' = Some row' -> In k row' -> b' = b) -> nth k (assign i sel P) 0 = i + b.
Proof.
  revert i P b; induction sel as [|row0 sel IH]; intros i P b H Hb Hin Hu; [destruct b; discriminate|]. cbn [assign].
  destruct b as [|b].
  - injection Hb as ->. rewrite assign_none.
    + rewrite set_cells_nth by exact H. assert (E : nmem k row = true) by now apply nmem_In. rewrite E. lia.
    + now rewrite set_cells_length.
    + intros row' Hr' Hk. apply In_nth_error in Hr' as (b' & Hb'). specialize (Hu (S b') row' Hb' Hk). discriminate.
  - rewrite (IH (S i) _ b); [lia| |exact Hb|exact Hin|].
    + now rewrite set_cells_length.
    + intros b' row' Hb' Hk. specialize (Hu (S b') row' Hb' Hk). lia.
Qed.

(** * min / max *)
Lemma list_min_eq l a : In a l -> (forall x, In x l -> a <= x) -> list_min l = a.
Proof.
  destruct l as [|c l]; [intros []|]. intros Hin Hle. unfold list_min.
  assert (G1 : forall l, fold_right Nat.min c l <= c /\ forall x, In x l -> fold_right Nat.min c l <= x).
  { induction l0 as [|d l0 [IH1 IH2]]; cbn [fold_right]; split; try lia.
    - intros x [].
    - intros x [->|Hx]; [lia|]. specialize (IH2 x Hx). lia. }
  assert (G2 : forall l, fold_right Nat.min c l = c \/ In (fold_right Nat.min c l) l).
  { induction l0 as [|d l0 IH]; cbn [fold_right]; [now left|]. destruct (Nat.min_spec d (fold_right Nat.min c l0)) as [[_ ->]|[_ ->]].
    - right. now left.
    - destruct IH as [->|IH]; [now left|]. right. now right. }
  destruct (G1 l) as [H1 H2]. assert (Hge : a <= fold_right Nat.min c l).
  { destruct (G2 l) as [->|H]; apply Hle; [now left|now right]. }
  destruct Hin as [->|Hin]; [lia|]. specialize (H2 a Hin). lia.
Qed.
Lemma list_max_eq l a : In a l -> (forall x, In x l -> x <= a) -> list_max' l = a.
Proof.
  unfold list_max'. intros Hin Hle.
  assert (H1 : fold_right Nat.max 0 l <= a).
  { clear Hin. induction l as [|d l IH]; cbn [fold_right]; [lia|]. pose proof (Hle d (or_introl eq_refl)). specialize (IH (fun x Hx => Hle x (or_intror Hx))). lia. }
  assert (H2 : a <= fold_right Nat.max 0 l).
  { clear H1 Hle. induction l as [|d l IH]; [destruct Hin|]. cbn [fold_right]. destruct Hin as [->|Hin]; [lia|]. specialize (IH Hin). lia. }
  lia.
Qed.

(** * Edges and digitize *)
Lemma edge_list_edges s : edge_list s = edges s. Proof. reflexivity. Qed.
Lemma nth_error_edges_some s j : j <= S (length s) -> exists e, nth_error (edges s) j = Some e.
Proof.
  intros H. destruct (nth_error (edges s) j) eqn:E; [eauto|]. apply nth_error_None in E. unfold edges in E. cbn [length] in E.
  rewrite app_length, map_length in E. cbn [length] in E. lia.
Qed.
Lemma digitize_ge s x j : nondecreasing s -> j <= length s ->
  (match nth_error (edges s) j with Some (Some a) => (a <= x)%Z | _ => True end <-> j <= digitize s x).
Proof.
  destruct j as [|j]; [intros _ _; cbn [edges nth_error]; split; [lia|auto]|].
  intros Hs Hj. rewrite nth_error_edges_S by lia. destruct (nth_error s j) as [a|] eqn:Ea; [|apply nth_error_None in Ea; lia].
  clear Hj. revert j Ea; induction s as [|c s IH]; intros j Ea; [destruct j; discriminate|].
  pose proof Hs as Hs0. apply nondecr_inv in Hs as [Hr Hle]. cbn [digitize]. destruct j as [|j].
  - injection Ea as ->. destruct (Z.leb_spec a x); split; lia.
  - cbn [nth_error] in Ea. specialize (IH Hr j Ea). assert (c <= a)%Z.
    { apply Hle. eapply nth_error_In; eauto. }
    destruct (Z.leb_spec c x); split; lia.
Qed.
Lemma digitize_lt s x j : nondecreasing s -> 1 <= j -> j <= S (length s) ->
  (match nth_error (edges s) j with Some (Some b) => (x < b)%Z | _ => True end <-> digitize s x < j).
Proof.
  intros Hs H1 Hj. destruct (Nat.eq_dec j (S (length s))) as [->|Hne].
  - rewrite nth_error_edges_S by lia. assert (E : nth_error s (length s) = None) by (apply nth_error_None; lia). rewrite E.
    pose proof (digitize_le s x). split; [lia|auto].
  - pose proof (digitize_ge s x j Hs ltac:(lia)) as H. destruct (nth_error_edges_some s j Hj) as [e He]. rewrite He in *.
    destruct e as [b|].
    + split; intros HH.
      * destruct (Nat.lt_ge_cases (digitize s x) j); [assumption|]. apply H in H0. lia.
      * destruct (Z.lt_ge_cases x b); [assumption|]. apply H in H0. lia.
    + exfalso. destruct j as [|j]; [lia|]. rewrite nth_error_edges_S in He by lia. injection He as He.
      apply nth_error_None in He. lia.
Qed.
