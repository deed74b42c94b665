(** The figure of a fitted 2D table. *)
From Coq Require Import List ZArith QArith Bool Arith Lia Reals Sorting Lra.
From Verif Require Import Model.Arr Model.Core Model.Metrics Model.TwoD Model.TwoDCont Model.TwoDCart Model.TwoDPairs Model.TwoDTable
  Spec.CoreSpec Spec.MetricsSpec Spec.TwoDSpec Spec.TwoDContSpec Spec.TwoDCartSpec Spec.TwoDPairsSpec Spec.TwoDTableSpec
  Proofs.ArrP Proofs.CoreP Proofs.TwoDP Proofs.TwoDQ Proofs.TwoDR Proofs.TwoDS Proofs.TwoDT Proofs.TwoDU Proofs.TwoDV Proofs.TwoDG Proofs.TwoDC Proofs.TwoDCR
  Proofs.TwoDCartP Proofs.TwoDCartQ Proofs.TwoDCartR Proofs.TwoDPairsP Proofs.TwoDPairsQ Proofs.TwoDTableP.
Import ListNotations.
Open Scope nat_scope.

Section Figure.
Variables (sx sy fe fne : list Z) (srs : list rect) (sp mi : Z * Z) (f : fitted2) (P0 : list nat).
Let n := S (length sx). Let m := S (length sy).
Hypothesis HF : fit_of sx sy fe fne srs sp mi f.
Hypothesis HT : tiling m n srs.
Hypothesis HP0 : length P0 = m * n.
Hypothesis HP : t_P f = assign 0 (t_rows f) P0.
Hypothesis Hsx : increasing sx.
Hypothesis Hsy : increasing sy.
Let lab y x := nth (y * n + x) (t_P f) 0.
Let HL : forall y x, y < m -> x < n -> exists r, nth_error srs (lab y x) = Some r /\ in_rect r y x :=
  grid_lab sx sy fe fne srs sp mi f P0 HF HT HP0 HP.

Lemma exists_iff {A} (P Q : A -> Prop) : (forall a, P a <-> Q a) -> (exists a, P a) <-> (exists a, Q a).
Proof. intros H. split; intros (a & Ha); exists a; now apply H. Qed.
Lemma and_iff (A B C : Prop) : (A -> (B <-> C)) -> (A /\ B <-> A /\ C).
Proof. tauto. Qed.
Lemma nb_srs : length (t_bx f) = length srs.
Proof. rewrite (fo_x _ _ _ _ _ _ _ _ HF). apply map_length. Qed.
Lemma lab_lt y x : y < m -> x < n -> lab y x < length (t_bx f).
Proof. intros Hy Hx. rewrite nb_srs. destruct (HL y x Hy Hx) as (r & Hr & _). apply nth_error_Some. congruence. Qed.
Lemma lab_iff y x y' x' r : y < m -> x < n -> y' < m -> x' < n -> nth_error srs (lab y' x') = Some r -> (lab y x = lab y' x' <-> in_rect r y x).
Proof.
  intros Hy Hx Hy' Hx' Hr. split; intros H.
  - apply (lab_rect m n srs (t_P f) HL); [exact Hy|exact Hx|]. unfold lab in *. now rewrite H.
  - apply (lab_eq m n srs (t_P f) HT HL y x _ r); assumption.
Qed.
Lemma rows_same y y' x x' i : y < m -> y' < m -> x < n -> x' < n -> i < n -> lab y x = lab y' x' -> lab y i = lab y x -> lab y' i = lab y x.
Proof.
  intros Hy Hy' Hx Hx' Hi E1 E2. destruct (HL y x Hy Hx) as (r & Hr & R1). pose proof Hr as Hr'. rewrite E1 in Hr'.
  pose proof (proj1 (lab_iff y i y x r Hy Hi Hy Hx Hr) E2) as R2. pose proof (proj1 (lab_iff y' x' y x r Hy' Hx' Hy Hx Hr) (eq_sym E1)) as R3.
  apply (lab_iff y' i y x r); auto. unfold in_rect in *. lia.
Qed.
Lemma cols_same x x' y y' i : x < n -> x' < n -> y < m -> y' < m -> i < m -> lab y x = lab y' x' -> lab i x = lab y x -> lab i x' = lab y x.
Proof.
  intros Hx Hx' Hy Hy' Hi E1 E2. destruct (HL y x Hy Hx) as (r & Hr & R1).
  pose proof (proj1 (lab_iff i x y x r Hi Hx Hy Hx Hr) E2) as R2. pose proof (proj1 (lab_iff y' x' y x r Hy' Hx' Hy Hx Hr) (eq_sym E1)) as R3.
  apply (lab_iff i x' y x r); auto. unfold in_rect in *. lia.
Qed.
Lemma top_lines values l : In l (map (step_line values (wide m n (t_P f))) (fst (get_paths m n (t_P f)))) <->
  exists y, y < m /\ l = map (fun x => nth (lab y x) values 0%R) (seq 0 n) ++ [nth (lab y (n - 1)) values 0%R].
Proof.
  apply (lines_of m n lab).
  - unfold n. lia.
  - intros y Hy i j k. apply (row_convex m n srs (t_P f) HT HL y Hy).
  - intros y y' x x' i; apply rows_same.
Qed.
Lemma right_lines values l : In l (map (step_line values (high m n (t_P f))) (snd (get_paths m n (t_P f)))) <->
  exists x, x < n /\ l = map (fun y => nth (lab y x) values 0%R) (seq 0 m) ++ [nth (lab (m - 1) x) values 0%R].
Proof.
  apply (lines_of n m (fun x y => lab y x)).
  - unfold m. lia.
  - intros x Hx i j k. apply (col_convex m n srs (t_P f) HT HL x Hx).
  - intros x x' y y' i; apply cols_same.
Qed.
Lemma the_cell_bin y x : y < m -> x < n -> cell_bin sx sy f y x (lab y x).
Proof.
  intros Hy Hx. split; [now apply lab_lt|]. intros u v Hu Hv. destruct (HL y x Hy Hx) as (r & Hr & R).
  split; [apply (in_x sx sy fe fne srs sp mi f P0 HF HT HP0 Hsx (lab y x) r u Hr)|apply (in_y sx sy fe fne srs sp mi f P0 HF HT HP0 Hsy (lab y x) r v Hr)]; unfold in_rect in R; lia.
Qed.
Lemma nth_map_seq {A} (F : nat -> A) d k i : i < k -> nth i (map F (seq 0 k)) d = F i.
Proof. intros H. rewrite (nth_indep _ d (F 0)) by now rewrite map_length, seq_length. rewrite map_nth, seq_nth by exact H. reflexivity. Qed.
Lemma plot_figure values cells : length (t_bx f) <= length values ->
  (forall y x, y < m -> x < n -> nth (y * n + x) cells 0%R = nth (lab y x) values 0%R) ->
  exists g, plot_2d m n (t_P f) values cells = Ok g /\ figure_of sx sy f values g.
Proof.
  intros HV HC. unfold plot_2d.
  assert (F1 : forallb (fun l => length l =? n + 1) (map (step_line values (wide m n (t_P f))) (fst (get_paths m n (t_P f)))) = true).
  { apply forallb_forall. intros l Hl. apply top_lines in Hl as (y & _ & ->). rewrite app_length, map_length, seq_length. apply Nat.eqb_refl. }
  assert (F2 : forallb (fun l => length l =? m + 1) (map (step_line values (high m n (t_P f))) (snd (get_paths m n (t_P f)))) = true).
  { apply forallb_forall. intros l Hl. apply right_lines in Hl as (x & _ & ->). rewrite app_length, map_length, seq_length. apply Nat.eqb_refl. }
  rewrite F1, F2. cbn [negb]. eexists. split; [reflexivity|]. unfold figure_of. fold n m. cbn [fg_top fg_right fg_numbers fg_values].
  assert (VV : forall y x, y < m -> x < n -> nth x (nth y (map (slice 0%R n cells) (seq 0 m)) []) 0%R = nth (lab y x) values 0%R).
  { intros y x Hy Hx. rewrite (nth_map_seq _ _ _ _ Hy). unfold slice. rewrite (nth_map_seq _ _ _ _ Hx). now apply HC. }
  assert (NN : forall y x, y < m -> x < n -> nth x (nth y (map (slice 0 n (t_P f)) (seq 0 m)) []) 0 = lab y x).
  { intros y x Hy Hx. rewrite (nth_map_seq _ _ _ _ Hy). unfold slice. now rewrite (nth_map_seq _ _ _ _ Hx). }
  split; [now rewrite map_length, seq_length|]. split; [now rewrite map_length, seq_length|]. split.
  { intros y Hy. rewrite !(nth_map_seq _ _ _ _ Hy). unfold slice. now rewrite !map_length, seq_length. }
  split.
  { intros y x Hy Hx. rewrite (NN y x Hy Hx), (VV y x Hy Hx). split; [now apply the_cell_bin|]. apply nth_error_nth'. pose proof (lab_lt y x Hy Hx). lia. }
  split.
  - intros l. rewrite top_lines. apply exists_iff. intros y. apply and_iff. intros Hy. unfold row_line. cbn [fg_values]. rewrite (VV y (n - 1) Hy) by (unfold n; lia).
    rewrite (nth_map_seq _ _ _ _ Hy). unfold slice. rewrite (map_ext_in (fun j => nth (y * n + j) cells 0%R) (fun x => nth (lab y x) values 0%R)); [reflexivity|]. intros x Hx. apply in_seq in Hx. apply HC; lia.
  - intros l. rewrite right_lines. apply exists_iff. intros x. apply and_iff. intros Hx. unfold col_line. cbn [fg_values]. rewrite (VV (m - 1) x) by (unfold m; lia).
    rewrite (map_ext_in (fun y => nth x (nth y (map (slice 0%R n cells) (seq 0 m)) []) 0%R) (fun y => nth (lab y x) values 0%R)); [reflexivity|]. intros y Hy. apply in_seq in Hy. apply VV; lia.
Qed.
(** the value matrix built by the loop of fit() *)
Lemma matrix_value v D0 y x : length D0 = m * n -> y < m -> x < n -> nth (y * n + x) (assign_R v 0 (t_rows f) D0) 0%R = v (lab y x).
Proof.
  intros HD Hy Hx. assert (Hc : y * n + x < m * n) by nia.
  destruct (assign_tied v (y * n + x) (t_rows f) 0 P0 D0 ltac:(lia) ltac:(lia)) as (_ & _ & E).
  - left. destruct (proj2 HT y x Hy Hx) as (b & r & B1 & B2 & _). apply in_concat. exists (cells n r). split.
    + rewrite (fo_rows _ _ _ _ _ _ _ _ HF). apply in_map. eapply nth_error_In; eauto.
    + apply (cells_In_coord m n r y x (proj1 HT r (nth_error_In _ _ B1)) Hx). exact B2.
  - rewrite E. unfold lab. now rewrite HP.
Qed.
End Figure.
