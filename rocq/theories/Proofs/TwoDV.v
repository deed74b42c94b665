From Coq Require Import List ZArith QArith Lia Bool Arith Permutation.
From Verif Require Import Model.Arr Model.Core Model.TwoD Spec.CoreSpec Spec.TwoDSpec Proofs.ArrP Proofs.CoreP Proofs.TwoDP Proofs.TwoDQ Proofs.TwoDR Proofs.TwoDS Proofs.TwoDT Proofs.TwoDU.
Import ListNotations.
Open Scope nat_scope.

Definition no_gamma (g : cfg2) : cfg2 :=
  {| trend_x := trend_x g; trend_y := trend_y g; min_bins2 := min_bins2 g; max_bins2 := max_bins2 g; diff_x := diff_x g; diff_y := diff_y g; gamma2 := false |}.
Lemma feasible2_valid m n g fe fne (ok : list nat -> bool) sol : 0 < n ->
  let rs := rects_of m n ok in let rd := grid_rdata m n ok in
  feasible2 m n g rd (rates_of fe fne (rd_rows rd)) (records_of fe fne (rd_rows rd)) sol ->
  valid_tiling m n g (fun r => ok (cells n r) = true) (q_of fe fne n) (select sol rs).
Proof.
  intros Hn rs rd H. assert (Hlen : length sol = length rs).
  { destruct H as [H _]. rewrite H. unfold rd, grid_rdata. cbn [rd_rows]. now rewrite map_length. }
  apply (proj1 (feasible2_iff m n (no_gamma g) fe fne ok sol Hn eq_refl Hlen)).
  destruct H as (H1 & H2 & H3 & H4 & H5 & _). unfold feasible2. repeat (split; [assumption|]). exact I.
Qed.

Section Fit.
Variables (ax ay : axis) (cx cy : option (list xval)) (pre_x pre_y : list sample2 -> list Z) (g : size_cfg) (c : cfg2)
  (solver : nat -> nat -> rdata -> list Q -> list Z -> option (list bool)) (P0 : nat -> list nat) (data : list sample2) (f : fitted2).
Hypothesis Hfit : fit2 ax ay cx cy pre_x pre_y g solver P0 data = Ok f.
Hypothesis Hsolver : sound_solver2 c solver.
Hypothesis HP0 : forall k, length (P0 k) = k.
Let clean := filter (clean2 cx cy) data.
Let sx := pre_x clean. Let sy := pre_y clean.
Let n := S (length sx). Let m := S (length sy).
Let fne := matrix ax ay sx sy true clean. Let fe := matrix ax ay sx sy false clean.
Lemma fit2_unpack : exists srs,
  valid_tiling m n c (fun r => admissible g fe fne (cells n r) = true) (q_of fe fne n) srs /\
  fit_of sx sy fe fne srs (target_info2 (filter (special2 cx cy) data)) (target_info2 (filter missing2 data)) f.
Proof.
  unfold fit2 in Hfit. fold clean in Hfit. fold sx sy in Hfit. fold n m in Hfit. fold fne fe in Hfit.
  destruct (solver m n _ _ _) as [sol|] eqn:Es; [|discriminate]. apply Hsolver in Es.
  assert (Hn : 0 < n) by (unfold n; lia).
  pose proof (feasible2_valid m n c fe fne _ sol Hn Es) as HV.
  exists (select sol (rects_of m n (admissible g fe fne))). split; [exact HV|].
  apply (finish2_fit sx sy fe fne (rects_of m n (admissible g fe fne)) sol (P0 (m * n))); [exact (proj1 HV)|apply HP0|exact Hfit].
Qed.
End Fit.

(** * the rows of the table *)
Lemma clean_known a x xs : axis_ok a xs -> In x xs -> x_isnull x = false -> known a x.
Proof.
  intros Ha Hin Hx. destruct x as [|z]; [discriminate|]. destruct a as [|cats]; cbn [known axis_ok] in *; [eauto|].
  destruct Ha as [Hnd Ha]. split; [exact Hnd|]. exists z. split; [reflexivity|]. now apply Ha.
Qed.
Lemma isin_false_no_code o x : match o with Some l => isin l x | None => false end = false -> no_code o x.
Proof. destruct o as [l|]; cbn; [|auto]. intros H Hin. apply isin_In in Hin. congruence. Qed.
Lemma truthy_isin o x : match o with Some l => isin l x | None => false end = true -> truthy_codes o = true.
Proof. destruct o as [[|a l]|]; cbn; auto; discriminate. Qed.
Lemma special_truthy cx cy x y : special2 cx cy (x, y, Y0) = true -> truthy_codes cx || truthy_codes cy = true.
Proof.
  unfold special2, s_x, s_y. cbn [fst snd]. intros H. apply orb_true_iff in H. apply orb_true_iff. destruct H as [H|H]; [left|right]; eapply truthy_isin; eauto.
Qed.
(** special and missing pairs *)
Lemma transform2_missing ax ay cx cy f x y : x = XNaN \/ y = XNaN ->
  transform2_indices ax ay cx cy f Empirical Empirical x y = Ok (Z.of_nat (S (length (t_bx f)))).
Proof.
  intros H. unfold transform2_indices, transform2. assert (E : missing2 (x, y, Y0) = true).
  { unfold missing2, s_x, s_y. cbn. destruct H as [->| ->]; cbn; [reflexivity|]. now rewrite !orb_false_r, orb_true_r. }
  rewrite E. unfold table_or_const. cbn [use_table]. unfold idx. rewrite nth_error_map, nth_error_seq0 by lia. reflexivity.
Qed.
Lemma transform2_special ax ay cx cy f x y : x <> XNaN -> y <> XNaN -> special2 cx cy (x, y, Y0) = true ->
  transform2_indices ax ay cx cy f Empirical Empirical x y = Ok (Z.of_nat (length (t_bx f))).
Proof.
  intros Hx Hy H. unfold transform2_indices, transform2. assert (E : missing2 (x, y, Y0) = false).
  { destruct x; [congruence|]. destruct y; [congruence|]. reflexivity. }
  rewrite E, H, (special_truthy _ _ _ _ H). cbn [andb]. unfold table_or_const. cbn [use_table]. unfold idx.
  rewrite nth_error_map, nth_error_seq0 by lia. reflexivity.
Qed.
Lemma special2_z cx cy x y z z' : special2 cx cy (x, y, z) = special2 cx cy (x, y, z'). Proof. reflexivity. Qed.
Lemma special2_false cx cy x y z : special2 cx cy (x, y, z) = false -> no_code cx x /\ no_code cy y.
Proof. unfold special2, s_x, s_y. cbn [fst snd]. intros H. apply orb_false_iff in H as [H1 H2]. split; now apply isin_false_no_code. Qed.

Section Rows.
Variables (sx sy : list Z) (fe fne : list Z) (srs : list rect) (sp mi : Z * Z) (f : fitted2) (ax ay : axis) (cx cy : option (list xval)).
Let n := S (length sx). Let m := S (length sy).
Hypothesis HF : fit_of sx sy fe fne srs sp mi f.
Hypothesis HT : tiling m n srs.
Hypothesis Hsx : nondecreasing sx.
Hypothesis Hsy : nondecreasing sy.
Lemma lands_rect b r s : nth_error srs b = Some r -> y_isnull (s_z s) = false ->
  (clean2 cx cy s = true -> known ax (s_x s) /\ known ay (s_y s)) ->
  lands ax ay cx cy f b s = clean2 cx cy s && nmem (digitize sy (encode ay (s_y s)) * n + digitize sx (encode ax (s_x s))) (cells n r).
Proof.
  intros Hr Hz Hkn. destruct s as [[x y] z]. unfold s_x, s_y, s_z in *. cbn [fst snd] in *.
  destruct (bins_length sx sy fe fne srs sp mi f HF) as [L1 L2].
  assert (Hb : b < length srs) by (apply nth_error_Some; congruence).
  unfold lands, s_x, s_y. cbn [fst snd].
  destruct (clean2 cx cy (x, y, z)) eqn:Ec.
  - destruct (Hkn eq_refl) as [Kx Ky]. cbn [andb].
    destruct (the_bin sx sy fe fne srs sp mi f ax ay HF HT Hsx Hsy x y Kx Ky) as (b0 & Hb0 & Hin & Hu & r0 & Hr0 & Hir).
    unfold clean2 in Ec. apply andb_true_iff in Ec as [_ Ec]. apply negb_true_iff in Ec. apply special2_false in Ec as [Cx Cy].
    rewrite (transform2_clean ax ay cx cy f x y b0 Empirical Empirical (known_num _ _ Kx) (known_num _ _ Ky) Cx Cy ltac:(lia) Hin Hu).
    assert (Hdx : digitize sx (encode ax x) < n) by (unfold n; pose proof (digitize_le sx (encode ax x)); lia).
    assert (Hdy : digitize sy (encode ay y) < m) by (unfold m; pose proof (digitize_le sy (encode ay y)); lia).
    destruct (Z.eqb_spec (Z.of_nat b0) (Z.of_nat b)) as [E|E].
    + apply Nat2Z.inj in E. subst b0. rewrite Hr in Hr0. injection Hr0 as <-. symmetry. apply nmem_In.
      apply (cells_In_coord m); [apply (proj1 HT); eapply nth_error_In; eauto|exact Hdx|exact Hir].
    + symmetry. apply not_true_is_false. intros H. apply nmem_In in H.
      apply (cells_In_coord m) in H; [|apply (proj1 HT); eapply nth_error_In; eauto|exact Hdx].
      destruct (proj2 HT _ _ Hdy Hdx) as (b1 & _ & _ & _ & Hu1). apply E. f_equal. rewrite (Hu1 b r Hr H). now rewrite (Hu1 b0 r0 Hr0 Hir).
  - cbn [andb]. destruct x as [|zx].
    { rewrite transform2_missing by now left. apply Z.eqb_neq. lia. }
    destruct y as [|zy].
    { rewrite transform2_missing by now right. apply Z.eqb_neq. lia. }
    rewrite transform2_special; [apply Z.eqb_neq; lia|discriminate|discriminate|].
    unfold clean2 in Ec. assert (Em : missing2 (XNum zx, XNum zy, z) = false) by (destruct z; [discriminate|reflexivity|reflexivity]).
    rewrite Em in Ec. cbn [negb andb] in Ec. apply negb_false_iff in Ec. exact Ec.
Qed.
End Rows.

Lemma filter_filter_len {A} (p q : A -> bool) l : filter p (filter q l) = filter (fun x => q x && p x) l.
Proof. apply filter_filter. Qed.
Lemma clean_not_null cx cy s : clean2 cx cy s = true -> x_isnull (s_x s) = false /\ x_isnull (s_y s) = false /\ y_isnull (s_z s) = false.
Proof.
  unfold clean2, missing2. intros H. apply andb_true_iff in H as [H _]. apply negb_true_iff in H.
  apply orb_false_iff in H as [H1 H2]. apply orb_false_iff in H1 as [H1 H3]. apply orb_false_iff in H2 as [H2 _]. auto.
Qed.
(** edges are distinct *)
Lemma edge_inj s j k a : increasing s -> edge s j = Some a -> edge s k = Some a -> j = k.
Proof.
  intros Hs. assert (G : forall j, edge s j = Some a -> exists i, j = S i /\ nth_error s i = Some a).
  { intros [|i] H; [discriminate|]. unfold edge, edges in H. exists i. split; [reflexivity|]. cbn [nth] in H.
    destruct (Nat.lt_ge_cases i (length s)) as [Hi|Hi].
    - rewrite app_nth1 in H by (now rewrite map_length). destruct (nth_error s i) as [v|] eqn:E; [|apply nth_error_None in E; lia].
      erewrite nth_error_nth in H; [|rewrite nth_error_map, E; reflexivity]. now injection H as ->.
    - rewrite app_nth2 in H by (now rewrite map_length). rewrite map_length in H.
      destruct (i - length s) as [|[|q]]; discriminate. }
  intros Hj Hk. destruct (G j Hj) as (i1 & -> & E1). destruct (G k Hk) as (i2 & -> & E2). f_equal.
  clear G Hj Hk. revert i1 i2 E1 E2; induction s as [|c s IH]; intros i1 i2 E1 E2; [destruct i1; discriminate|].
  apply incr_inv in Hs as [Hs Hlt]. destruct i1 as [|i1], i2 as [|i2]; cbn [nth_error] in *; try reflexivity.
  - injection E1 as ->. apply nth_error_In in E2. apply Hlt in E2. lia.
  - injection E2 as ->. apply nth_error_In in E1. apply Hlt in E1. lia.
  - f_equal. now apply IH.
Qed.

(** * a decidable check and an exhaustive solver, for the examples *)
Definition mono2b (tr : option trend2) (md : Q) (er : list Q) (nr : nat) (cn : nat -> list nat) (sol : list bool) : bool :=
  match tr with
  | None => true
  | Some tr => forallb (fun t => let ind := filter (bad tr md er t) (cn t) in
      match ind with [] => true | _ => (xsum2 sol ind <=? Z.of_nat (length ind) * (1 - xv sol t))%Z end) (seq 0 nr)
  end.
Definition feasible2b (m n : nat) (g : cfg2) (rd : rdata) (er : list Q) (sol : list bool) : bool :=
  Nat.eqb (length sol) (length (rd_rows rd)) &&
  forallb (fun c => (xsum2 sol (cols (rd_rows rd) c) =? 1)%Z) (seq 0 (m * n)) &&
  (match min_bins2 g with Some lo => (lo <=? Z.of_nat (count_true sol))%Z | None => true end &&
   match max_bins2 g with Some hi => (Z.of_nat (count_true sol) <=? hi)%Z | None => true end) &&
  mono2b (trend_x g) (diff_x g) er (length (rd_rows rd)) (conn_x m n rd) sol &&
  mono2b (trend_y g) (diff_y g) er (length (rd_rows rd)) (conn_y m n rd) sol && negb (gamma2 g).
Lemma mono2b_ok tr md er nr cn sol : mono2b tr md er nr cn sol = true -> mono2 tr md er nr cn sol.
Proof.
  destruct tr as [tr|]; cbn [mono2b mono2]; [|auto]. intros H t Ht Hne. rewrite forallb_forall in H. specialize (H t (proj2 (in_seq _ _ _) (conj (Nat.le_0_l t) Ht))).
  cbv zeta in H. destruct (filter (bad tr md er t) (cn t)) as [|a l] eqn:E; [congruence|]. now apply Z.leb_le.
Qed.
Lemma feasible2b_ok m n g rd er nrec sol : feasible2b m n g rd er sol = true -> feasible2 m n g rd er nrec sol.
Proof.
  unfold feasible2b. rewrite !andb_true_iff. intros [[[[[H1 H2] [H3 H3']] H4] H5] H6]. apply Nat.eqb_eq in H1. unfold feasible2.
  split; [exact H1|]. split.
  { intros c Hc. rewrite forallb_forall in H2. apply Z.eqb_eq. apply H2. apply in_seq. lia. }
  split.
  { apply bins_bounds; [exact H1|]. split; [destruct (min_bins2 g); [now apply Z.leb_le|exact I]|destruct (max_bins2 g); [now apply Z.leb_le|exact I]]. }
  split; [now apply mono2b_ok|]. split; [now apply mono2b_ok|]. unfold dominating2. apply negb_true_iff in H6. rewrite H6. exact I.
Qed.
Fixpoint all_bools (k : nat) : list (list bool) :=
  match k with O => [[]] | S k => map (cons true) (all_bools k) ++ map (cons false) (all_bools k) end.
Definition brute (g : cfg2) (m n : nat) (rd : rdata) (er : list Q) (nrec : list Z) : option (list bool) :=
  find (feasible2b m n g rd er) (all_bools (length (rd_rows rd))).
Lemma brute_sound g : sound_solver2 g (brute g).
Proof. intros m n rd er nrec sol H. apply find_some in H as [_ H]. now apply feasible2b_ok. Qed.
