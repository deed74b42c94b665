From Coq Require Import List ZArith QArith Lia Bool Arith Permutation.
From Verif Require Import Model.Arr Model.Core Model.TwoD Spec.CoreSpec Spec.TwoDSpec Proofs.ArrP Proofs.CoreP Proofs.TwoDP Proofs.TwoDQ Proofs.TwoDR Proofs.TwoDS.
Import ListNotations.
Open Scope nat_scope.

(** * counts *)
Lemma filter_ext_len {A} (p q : A -> bool) l : (forall x, In x l -> p x = q x) -> filter p l = filter q l.
Proof.
  induction l as [|a l IH]; intros H; [reflexivity|]. cbn [filter]. rewrite (H a (or_introl eq_refl)), (IH (fun x Hx => H x (or_intror Hx))). reflexivity.
Qed.
Lemma matrix_nth ax ay sx sy cls clean c : let n := S (length sx) in let m := S (length sy) in c < m * n ->
  nth c (matrix ax ay sx sy cls clean) 0%Z =
  Z.of_nat (length (filter (fun s => Bool.eqb (y_is0 (s_z s)) cls &&
    Nat.eqb (digitize sy (encode ay (s_y s)) * n + digitize sx (encode ax (s_x s))) c) clean)).
Proof.
  intros n m Hc. assert (Hn : 0 < n) by (unfold n; lia).
  assert (Hy : c / n < m) by (apply Nat.div_lt_upper_bound; lia).
  assert (Hx : c mod n < n) by (apply Nat.mod_upper_bound; lia).
  erewrite nth_error_nth; [|unfold matrix; rewrite (cell_coord n c Hn) at 1; apply grid_nth; assumption].
  f_equal. f_equal. apply filter_ext_len. intros s _. f_equal.
  set (dx := digitize sx (encode ax (s_x s))). set (dy := digitize sy (encode ay (s_y s))).
  assert (Hdx : dx < n) by (unfold dx, n; pose proof (digitize_le sx (encode ax (s_x s))); lia).
  destruct (Nat.eqb_spec (dy * n + dx) c) as [E|E].
  - apply andb_true_iff. rewrite !Nat.eqb_eq. rewrite (cell_coord n c Hn) in E at 1. apply coord_unique in E; lia.
  - apply andb_false_iff. destruct (Nat.eqb_spec dx (c mod n)) as [E1|E1]; [|now left]. destruct (Nat.eqb_spec dy (c / n)) as [E2|E2]; [|now right].
    exfalso. apply E. rewrite E1, E2. symmetry. now apply cell_coord.
Qed.
Lemma sum_counts {A} (q : A -> bool) (key : A -> nat) (row : list nat) (l : list A) : NoDup row ->
  zsum (map (fun c => Z.of_nat (length (filter (fun s => q s && Nat.eqb (key s) c) l))) row) =
  Z.of_nat (length (filter (fun s => q s && nmem (key s) row) l)).
Proof.
  intros Hnd. induction l as [|s l IH].
  - cbn [filter length]. clear Hnd. induction row as [|c row IH]; [reflexivity|]. cbn [map zsum]. now rewrite IH.
  - cbn [filter].
    assert (E : forall c, Z.of_nat (length (if q s && Nat.eqb (key s) c then s :: filter (fun s0 => q s0 && Nat.eqb (key s0) c) l else filter (fun s0 => q s0 && Nat.eqb (key s0) c) l)) =
       ((if q s then if Nat.eqb (key s) c then 1 else 0 else 0) + Z.of_nat (length (filter (fun s0 => q s0 && Nat.eqb (key s0) c) l)))%Z).
    { intros c. destruct (q s), (Nat.eqb (key s) c); cbn [andb length]; lia. }
    rewrite (map_ext _ _ E), zsum_map_plus, IH. clear E IH.
    assert (E : zsum (map (fun c => if q s then if Nat.eqb (key s) c then 1 else 0 else 0)%Z row) = (if q s && nmem (key s) row then 1 else 0)%Z).
    { destruct (q s); cbn [andb].
      - induction Hnd as [|c row Hc Hnd IH]; [reflexivity|]. cbn [map zsum nmem existsb]. fold (nmem (key s) row). rewrite IH.
        destruct (Nat.eqb_spec (key s) c) as [E|E]; cbn [orb]; [|lia].
        destruct (nmem (key s) row) eqn:E2; [apply nmem_In in E2; congruence|lia].
      - clear. induction row as [|c row IH]; [reflexivity|]. cbn [map zsum]. rewrite IH. reflexivity. }
    rewrite E. destruct (q s && nmem (key s) row); cbn [length]; lia.
Qed.
Lemma cell_sum_rect ax ay sx sy cls clean r : let n := S (length sx) in let m := S (length sy) in rect_ok m n r ->
  cell_sum (matrix ax ay sx sy cls clean) (cells n r) =
  Z.of_nat (length (filter (fun s => Bool.eqb (y_is0 (s_z s)) cls &&
     nmem (digitize sy (encode ay (s_y s)) * n + digitize sx (encode ax (s_x s))) (cells n r)) clean)).
Proof.
  intros n m Hr. unfold cell_sum. rewrite <- (sum_counts (fun s => Bool.eqb (y_is0 (s_z s)) cls)
     (fun s => digitize sy (encode ay (s_y s)) * n + digitize sx (encode ax (s_x s))) (cells n r) clean) by now apply (cells_NoDup m).
  apply zsum_map_ext. intros c Hc. apply matrix_nth. fold n m. eapply cells_lt; eauto.
Qed.

(** * monotonicity *)
Lemma keys_x_In m n y x : y < m -> S x < n -> In (y * n + x) (keys_x m n).
Proof.
  intros Hy Hx. unfold keys_x. apply in_flat_map. exists y. split; [apply in_seq; lia|]. apply in_map_iff. exists x. split; [lia|apply in_seq; lia].
Qed.
Lemma keys_y_In m n y x : S y < m -> x < n -> In (y * n + x) (keys_y m n).
Proof.
  intros Hy Hx. unfold keys_y. apply in_flat_map. exists y. split; [apply in_seq; lia|]. apply in_map_iff. exists x. split; [lia|apply in_seq; lia].
Qed.
Section Adj.
Variables (m n : nat) (ok : list nat -> bool).
Let rs := rects_of m n ok.
Let rd := grid_rdata m n ok.
Lemma rs_ok t r : nth_error rs t = Some r -> rect_ok m n r.
Proof. intros H. apply nth_error_In in H. now apply rects_of_In in H as [? _]. Qed.
Lemma rows_nth t r : nth_error rs t = Some r -> nth_error (rd_rows rd) t = Some (cells n r).
Proof. intros H. unfold rd, grid_rdata. cbn [rd_rows]. rewrite nth_error_map. fold rs. now rewrite H. Qed.
Lemma overlaps_false t u r r' : nth_error rs t = Some r -> nth_error rs u = Some r' ->
  (forall y x, in_rect r y x -> in_rect r' y x -> False) -> overlaps rd t u = false.
Proof.
  intros Ht Hu Hd. apply not_true_is_false. intros H. unfold overlaps in H. apply existsb_exists in H as (c & Hc & H).
  rewrite (nth_error_nth _ _ _ (rows_nth t r Ht)) in Hc. apply nmem_In, cols_In in H as (row & Hrow & Hc').
  rewrite (rows_nth u r' Hu) in Hrow. injection Hrow as <-.
  pose proof (rs_ok t r Ht) as Hr. pose proof (rs_ok u r' Hu) as Hr'.
  assert (Hn : 0 < n) by (destruct Hr; lia). assert (Hx : c mod n < n) by (apply Nat.mod_upper_bound; lia).
  rewrite (cell_coord n c Hn) in Hc, Hc'. apply (cells_In_coord m n r _ _ Hr Hx) in Hc. apply (cells_In_coord m n r' _ _ Hr' Hx) in Hc'. eauto.
Qed.
Lemma conn_x_In t u r r' y : nth_error rs t = Some r -> nth_error rs u = Some r' ->
  r_j r + r_l r = r_j r' -> r_i r <= y < r_i r + r_k r -> r_i r' <= y < r_i r' + r_k r' -> In u (conn_x m n rd t).
Proof.
  intros Ht Hu Hj Hy Hy'. pose proof (rs_ok t r Ht) as Hr. pose proof (rs_ok u r' Hu) as Hr'. destruct Hr as (Hk & Hl & Hm & Hn), Hr' as (Hk' & Hl' & Hm' & Hn') eqn:E.
  unfold conn_x, conn. apply filter_In. split.
  - apply in_seq. split; [lia|]. cbn [Nat.add]. apply nth_error_Some. rewrite (rows_nth u r' Hu). discriminate.
  - apply andb_true_iff. split.
    + apply existsb_exists. exists (y * n + (r_j r + r_l r - 1)). split.
      * unfold rd, grid_rdata. cbn [rd_ox]. erewrite nth_error_nth; [|rewrite nth_error_map; fold rs; rewrite Ht; reflexivity].
        eapply outer_x_In; [now apply (rs_ok t)|exact Hy].
      * apply andb_true_iff. split.
        -- apply nmem_In, keys_x_In; lia.
        -- apply nmem_In, cols_In. exists (cells n r'). split; [now apply rows_nth|].
           replace (y * n + (r_j r + r_l r - 1) + 1) with (y * n + r_j r') by lia.
           apply (cells_In_coord m); [now apply (rs_ok u)|lia|]. split; lia.
    + rewrite (overlaps_false t u r r' Ht Hu); [reflexivity|]. intros y0 x0 [_ H1] [_ H2]. lia.
Qed.
Lemma conn_y_In t u r r' x : nth_error rs t = Some r -> nth_error rs u = Some r' ->
  r_i r + r_k r = r_i r' -> r_j r <= x < r_j r + r_l r -> r_j r' <= x < r_j r' + r_l r' -> In u (conn_y m n rd t).
Proof.
  intros Ht Hu Hj Hx Hx'. pose proof (rs_ok t r Ht) as Hr. pose proof (rs_ok u r' Hu) as Hr'. destruct Hr as (Hk & Hl & Hm & Hn), Hr' as (Hk' & Hl' & Hm' & Hn') eqn:E.
  unfold conn_y, conn. apply filter_In. split.
  - apply in_seq. split; [lia|]. cbn [Nat.add]. apply nth_error_Some. rewrite (rows_nth u r' Hu). discriminate.
  - apply andb_true_iff. split.
    + apply existsb_exists. exists ((r_i r + r_k r - 1) * n + x). split.
      * unfold rd, grid_rdata. cbn [rd_oy]. erewrite nth_error_nth; [|rewrite nth_error_map; fold rs; rewrite Ht; reflexivity].
        eapply outer_y_In; [now apply (rs_ok t)|exact Hx].
      * apply andb_true_iff. split.
        -- apply nmem_In, keys_y_In; lia.
        -- apply nmem_In, cols_In. exists (cells n r'). split; [now apply rows_nth|].
           replace ((r_i r + r_k r - 1) * n + x + n) with (r_i r' * n + x) by nia.
           apply (cells_In_coord m); [now apply (rs_ok u)|lia|]. split; lia.
    + rewrite (overlaps_false t u r r' Ht Hu); [reflexivity|]. intros y0 x0 [H1 _] [H2 _]. lia.
Qed.
(** conversely, connected rectangles are side by side *)
Lemma conn_x_inv t u r : nth_error rs t = Some r -> In u (conn_x m n rd t) ->
  exists r' y, nth_error rs u = Some r' /\ r_j r + r_l r = r_j r' /\ r_i r <= y < r_i r + r_k r /\ r_i r' <= y < r_i r' + r_k r'.
Proof.
  intros Ht Hu. unfold conn_x, conn in Hu. apply filter_In in Hu as [Hu H]. apply andb_true_iff in H as [H Hov].
  apply existsb_exists in H as (c & Hc & H). apply andb_true_iff in H as [Hkey H]. apply nmem_In in Hkey.
  unfold rd, grid_rdata in Hc. cbn [rd_ox] in Hc. erewrite nth_error_nth in Hc; [|rewrite nth_error_map; fold rs; rewrite Ht; reflexivity].
  pose proof (rs_ok t r Ht) as Hr. pose proof Hr as (Hk & Hl & Hm & Hn). apply outer_x_cells in Hc as (a & Ha & ->); [|assumption|assumption].
  apply nmem_In, cols_In in H as (row & Hrow & Hc). unfold rd, grid_rdata in Hrow. cbn [rd_rows] in Hrow. rewrite nth_error_map in Hrow. fold rs in Hrow.
  destruct (nth_error rs u) as [r'|] eqn:Eu; [|discriminate]. injection Hrow as <-. pose proof (rs_ok u r' Eu) as Hr'.
  assert (Hj : r_j r + r_l r < n).
  { unfold keys_x in Hkey. apply in_flat_map in Hkey as (i & _ & Hkey). apply in_map_iff in Hkey as (j & E & Hj). apply in_seq in Hj.
    replace (n * i + j) with (i * n + j) in E by lia. apply coord_unique in E; lia. }
  replace ((r_i r + a) * n + (r_j r + (r_l r - 1)) + 1) with ((r_i r + a) * n + (r_j r + r_l r)) in Hc by lia.
  apply (cells_In_coord m n r' _ _ Hr' Hj) in Hc as [Hy' Hx'].
  exists r', (r_i r + a). split; [reflexivity|]. split; [|lia].
  destruct (Nat.eq_dec (r_j r + r_l r) (r_j r')) as [E|E]; [exact E|]. exfalso.
  apply negb_true_iff in Hov. apply not_true_iff_false in Hov. apply Hov. unfold overlaps. apply existsb_exists.
  exists ((r_i r + a) * n + (r_j r + (r_l r - 1))). rewrite (nth_error_nth _ _ _ (rows_nth t r Ht)). split.
  - apply (cells_In_coord m); [assumption|lia|]. split; lia.
  - apply nmem_In, cols_In. exists (cells n r'). split; [now apply rows_nth|]. apply (cells_In_coord m); [assumption|lia|]. split; lia.
Qed.
Lemma conn_y_inv t u r : nth_error rs t = Some r -> In u (conn_y m n rd t) ->
  exists r' x, nth_error rs u = Some r' /\ r_i r + r_k r = r_i r' /\ r_j r <= x < r_j r + r_l r /\ r_j r' <= x < r_j r' + r_l r'.
Proof.
  intros Ht Hu. unfold conn_y, conn in Hu. apply filter_In in Hu as [Hu H]. apply andb_true_iff in H as [H Hov].
  apply existsb_exists in H as (c & Hc & H). apply andb_true_iff in H as [Hkey H]. apply nmem_In in Hkey.
  unfold rd, grid_rdata in Hc. cbn [rd_oy] in Hc. erewrite nth_error_nth in Hc; [|rewrite nth_error_map; fold rs; rewrite Ht; reflexivity].
  pose proof (rs_ok t r Ht) as Hr. pose proof Hr as (Hk & Hl & Hm & Hn). apply outer_y_cells in Hc as (a & Ha & ->); [|assumption|assumption].
  apply nmem_In, cols_In in H as (row & Hrow & Hc). unfold rd, grid_rdata in Hrow. cbn [rd_rows] in Hrow. rewrite nth_error_map in Hrow. fold rs in Hrow.
  destruct (nth_error rs u) as [r'|] eqn:Eu; [|discriminate]. injection Hrow as <-. pose proof (rs_ok u r' Eu) as Hr'.
  replace ((r_i r + (r_k r - 1)) * n + (r_j r + a) + n) with ((r_i r + r_k r) * n + (r_j r + a)) in Hc by nia.
  assert (Hxa : r_j r + a < n) by lia.
  apply (cells_In_coord m n r' _ _ Hr' Hxa) in Hc as [Hy' Hx'].
  exists r', (r_j r + a). split; [reflexivity|]. split; [|lia].
  destruct (Nat.eq_dec (r_i r + r_k r) (r_i r')) as [E|E]; [exact E|]. exfalso.
  apply negb_true_iff in Hov. apply not_true_iff_false in Hov. apply Hov. unfold overlaps. apply existsb_exists.
  exists ((r_i r + (r_k r - 1)) * n + (r_j r + a)). rewrite (nth_error_nth _ _ _ (rows_nth t r Ht)). split.
  - apply (cells_In_coord m); [assumption|lia|]. split; lia.
  - apply nmem_In, cols_In. exists (cells n r'). split; [now apply rows_nth|]. apply (cells_In_coord m); [assumption|lia|]. split; lia.
Qed.
End Adj.

(** the constraint forbids exactly the bad pairs *)
Lemma bad_follows tr md er t u : bad tr md er t u = false <-> follows (Some tr) md (nth t er 0%Q) (nth u er 0%Q).
Proof.
  assert (G : forall x y, Qle_bool x y = false <-> (y < x)%Q).
  { intros x y. rewrite <- not_true_iff_false, Qle_bool_iff. split; [apply Qnot_le_lt|apply Qlt_not_le]. }
  destruct tr; cbn [bad follows]; apply G.
Qed.
Lemma mono2_pairs tr md er nr cn sol : (forall t, t < nr -> forall u, In u (cn t) -> u < nr) ->
  (mono2 (Some tr) md er nr cn sol <->
   forall t u, t < nr -> In u (cn t) -> nth t sol false = true -> nth u sol false = true -> bad tr md er t u = false).
Proof.
  intros Hcn. cbn [mono2]. split.
  - intros H t u Ht Hu Hs Hs'. apply not_true_is_false. intros Hb.
    assert (Hin : In u (filter (bad tr md er t) (cn t))) by (apply filter_In; auto).
    specialize (H t Ht). cbv zeta in H. assert (Hne : filter (bad tr md er t) (cn t) <> []) by (intros E; rewrite E in Hin; destruct Hin).
    specialize (H Hne). pose proof (xsum2_pos sol _ u Hin Hs') as Hp. unfold xv in H. rewrite Hs in H. cbn [b2z] in H. lia.
  - intros H t Ht Hne. set (ind := filter (bad tr md er t) (cn t)) in *. destruct (nth t sol false) eqn:Es.
    + assert (E : xsum2 sol ind = 0%Z).
      { apply xsum2_zero. intros u Hu. unfold ind in Hu. apply filter_In in Hu as [Hu Hb]. destruct (nth u sol false) eqn:Eu; [|reflexivity].
        rewrite (H t u Ht Hu Es Eu) in Hb. discriminate. }
      rewrite E. unfold xv. rewrite Es. cbn [b2z]. lia.
    + unfold xv. rewrite Es. cbn [b2z]. pose proof (xsum2_le sol ind). lia.
Qed.
