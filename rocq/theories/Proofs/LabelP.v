(** C73: texts of numbers and labels. *)
From Coq Require Import List ZArith Bool Ascii String Lia Sorted.
From Verif Require Import Model.Arr Model.Core Model.Prebin Model.Label Spec.CoreSpec Spec.PrebinSpec Spec.LabelSpec Proofs.CoreP Proofs.PrebinP.
Import ListNotations.
Open Scope string_scope.
Open Scope Z_scope.

(** ** strings *)
Lemma app_assoc_s (a b c : string) : ((a ++ b) ++ c)%string = (a ++ b ++ c)%string.
Proof. induction a as [|x a IH]; cbn; [reflexivity|now rewrite IH]. Qed.
Lemma app_nil_s (a : string) : (a ++ "")%string = a.
Proof. induction a as [|x a IH]; cbn; [reflexivity|now rewrite IH]. Qed.
Fixpoint has (c : ascii) (s : string) : Prop := match s with "" => False | String x r => x = c \/ has c r end.
Lemma sep_inj c (a b x y : string) : ~ has c a -> ~ has c b -> (a ++ String c x)%string = (b ++ String c y)%string -> a = b /\ x = y.
Proof.
  revert b. induction a as [|p a IH]; intros [|q b] Ha Hb H; cbn in *.
  - injection H as H. auto.
  - injection H as H1 H2. subst q. tauto.
  - injection H as H1 H2. subst p. tauto.
  - injection H as H1 H2. subst q. destruct (IH b) as [E1 E2]; [tauto|tauto|exact H2|]. subst. auto.
Qed.
Lemma app_inj_r c (a b : string) : (a ++ String c "")%string = (b ++ String c "")%string -> a = b.
Proof.
  revert b. induction a as [|p a IH]; intros [|q b] H; cbn in *; [reflexivity| | |].
  - injection H as -> H. destruct b; discriminate.
  - injection H as -> H. destruct a; discriminate.
  - injection H as -> H. f_equal. auto.
Qed.

(** ** digits *)
Lemma digit_read z : 0 <= z < 10 -> digit_value (ascii_of_nat (48 + Z.to_nat z)) = Some z.
Proof.
  intros H. assert (C : z = 0 \/ z = 1 \/ z = 2 \/ z = 3 \/ z = 4 \/ z = 5 \/ z = 6 \/ z = 7 \/ z = 8 \/ z = 9) by lia.
  repeat (destruct C as [->|C]; [reflexivity|]). subst. reflexivity.
Qed.
Lemma read_unsigned_digit acc z s : 0 <= z < 10 -> read_unsigned acc (digit z ++ s) = read_unsigned (10 * acc + z) s.
Proof. intros H. unfold digit. cbn [append read_unsigned]. now rewrite digit_read. Qed.
Lemma read_frac_digit acc k z s : 0 <= z < 10 -> read_frac acc k (digit z ++ s) = read_frac (10 * acc + z) (S k) s.
Proof. intros H. unfold digit. cbn [append read_frac]. now rewrite digit_read. Qed.
Lemma read_int_f f : forall n s, 0 <= n < 2 ^ Z.of_nat (S f) -> read_unsigned 0 (show_int_f (S f) n ++ s) = read_unsigned n s.
Proof.
  induction f as [|f IH]; intros n s H; cbn [show_int_f]; destruct (Z.ltb_spec n 10) as [L|L].
  - rewrite read_unsigned_digit by lia. f_equal.
  - exfalso. change (2 ^ Z.of_nat 1) with 2 in H. lia.
  - rewrite read_unsigned_digit by lia. f_equal.
  - change (if n / 10 <? 10 then digit (n / 10) else show_int_f f (n / 10 / 10) ++ digit ((n / 10) mod 10)) with (show_int_f (S f) (n / 10)).
    rewrite app_assoc_s, IH.
    + pose proof (Z.mod_pos_bound n 10 ltac:(lia)). rewrite read_unsigned_digit by lia. f_equal. pose proof (Z.div_mod n 10 ltac:(lia)). lia.
    + split; [apply Z.div_pos; lia|]. apply Z.div_lt_upper_bound; [lia|]. rewrite Nat2Z.inj_succ, Z.pow_succ_r in H by lia. lia.
Qed.
Lemma read_int n s : 0 <= n -> read_unsigned 0 (show_int n ++ s) = read_unsigned n s.
Proof.
  intros H. unfold show_int. apply read_int_f. split; [exact H|]. rewrite Nat2Z.inj_succ, Z2Nat.id by apply Z.log2_nonneg.
  destruct (Z.eq_dec n 0) as [->|N]; [reflexivity|]. apply Z.log2_spec. lia.
Qed.
Lemma read_fixed d : forall n acc k s, 0 <= n < 10 ^ Z.of_nat d -> read_frac acc k (show_fixed d n ++ s) = read_frac (acc * 10 ^ Z.of_nat d + n) (k + d) s.
Proof.
  induction d as [|d IH]; intros n acc k s H; cbn [show_fixed].
  - cbn [append]. change (10 ^ Z.of_nat 0) with 1 in *. f_equal; lia.
  - rewrite Nat2Z.inj_succ, Z.pow_succ_r in H by lia. rewrite app_assoc_s, IH.
    + pose proof (Z.mod_pos_bound n 10 ltac:(lia)). rewrite read_frac_digit by lia. f_equal; [|lia]. rewrite Nat2Z.inj_succ, Z.pow_succ_r by lia. pose proof (Z.div_mod n 10 ltac:(lia)). lia.
    + split; [apply Z.div_pos; lia|]. apply Z.div_lt_upper_bound; lia.
Qed.
Lemma show_int_f_head f n : 0 <= n < 2 ^ Z.of_nat (S f) -> exists c r v, show_int_f (S f) n = String c r /\ digit_value c = Some v.
Proof.
  revert n. induction f as [|f IH]; intros n H; cbn [show_int_f]; destruct (Z.ltb_spec n 10) as [L|L].
  - exists (ascii_of_nat (48 + Z.to_nat n)), "", n. split; [reflexivity|apply digit_read; lia].
  - exfalso. change (2 ^ Z.of_nat 1) with 2 in H. lia.
  - exists (ascii_of_nat (48 + Z.to_nat n)), "", n. split; [reflexivity|apply digit_read; lia].
  - change (if n / 10 <? 10 then digit (n / 10) else show_int_f f (n / 10 / 10) ++ digit ((n / 10) mod 10)) with (show_int_f (S f) (n / 10)).
    destruct (IH (n / 10)) as (c & r & v & E & D).
    + split; [apply Z.div_pos; lia|]. apply Z.div_lt_upper_bound; [lia|]. rewrite Nat2Z.inj_succ, Z.pow_succ_r in H by lia. lia.
    + rewrite E. cbn [append]. eauto.
Qed.
Lemma show_int_head n : 0 <= n -> exists c r v, show_int n = String c r /\ digit_value c = Some v.
Proof.
  intros H. unfold show_int. apply show_int_f_head. split; [exact H|]. rewrite Nat2Z.inj_succ, Z2Nat.id by apply Z.log2_nonneg.
  destruct (Z.eq_dec n 0) as [->|N]; [reflexivity|]. apply Z.log2_spec. lia.
Qed.

Lemma round_sign U v : 0 < U -> (0 <= v -> 0 <= round_to U v) /\ (v < 0 -> round_to U v <= 0).
Proof.
  intros HU. assert (Z0 : round_to U 0 = 0) by (unfold round_to; rewrite Z.div_0_l, Z.mod_0_l by lia; destruct (Z.ltb_spec (2 * 0) U); lia).
  split; intros H; rewrite <- Z0; apply round_mono; lia.
Qed.
Definition body (d : nat) (q : Z) : string := (show_int (q / 10 ^ Z.of_nat d) ++ match d with O => "" | _ => "." ++ show_fixed d (q mod 10 ^ Z.of_nat d) end)%string.
Lemma body_read d q : 0 <= q -> read_unsigned 0 (body d q) = Some (q, d).
Proof.
  intros H. unfold body. assert (P : 0 < 10 ^ Z.of_nat d) by (apply Z.pow_pos_nonneg; lia). rewrite read_int by (apply Z.div_pos; lia).
  destruct d as [|d].
  - change (10 ^ Z.of_nat 0) with 1. rewrite Z.div_1_r. reflexivity.
  - cbn [append read_unsigned]. change (digit_value ".") with (@None Z). cbv iota. change (Ascii.eqb "." ".") with true. cbv iota.
    rewrite <- (app_nil_s (show_fixed _ _)), read_fixed by (apply Z.mod_pos_bound; exact P). cbn [read_frac]. f_equal. f_equal.
    pose proof (Z.div_mod q (10 ^ Z.of_nat (S d)) ltac:(lia)). lia.
Qed.
Lemma body_head d q : 0 <= q -> exists c r v, body d q = String c r /\ digit_value c = Some v.
Proof.
  intros H. unfold body. assert (P : 0 < 10 ^ Z.of_nat d) by (apply Z.pow_pos_nonneg; lia). destruct (show_int_head (q / 10 ^ Z.of_nat d)) as (c & r & v & E & D); [apply Z.div_pos; lia|].
  rewrite E. cbn [append]. eauto.
Qed.
Lemma fmt_shows d U v : 0 < U -> shows d U v (fmt d U v).
Proof.
  intros HU. pose proof (round_rounds U v HU) as R. pose proof R as ([q Q] & _). destruct (round_sign U v HU) as [S1 S2].
  unfold shows. exists (Z.abs q). assert (E : Z.abs (round_to U v) / U = Z.abs q) by (rewrite Q, Z.abs_mul, (Z.abs_eq U), Z.div_mul by lia; reflexivity).
  split.
  - unfold fmt. cbv zeta. rewrite E. fold (body d (Z.abs q)). pose proof (body_read d (Z.abs q) ltac:(lia)) as B. destruct (v <? 0).
    + cbn [append read_number]. change (Ascii.eqb "-" "-") with true. cbv iota. rewrite B. reflexivity.
    + cbn [append]. destruct (body_head d (Z.abs q) ltac:(lia)) as (c & r & x & Eb & D). rewrite Eb in *. cbn [read_number].
      destruct (Ascii.eqb_spec c "-") as [->|N]; [discriminate D|]. rewrite B. reflexivity.
  - destruct (Z.ltb_spec v 0) as [L|L].
    + replace (- Z.abs q * U) with (round_to U v); [exact R|]. rewrite Q. specialize (S2 L). rewrite Q in S2. assert (q <= 0) by nia. rewrite Z.abs_neq by lia. ring.
    + replace (Z.abs q * U) with (round_to U v); [exact R|]. rewrite Q. specialize (S1 L). rewrite Q in S1. assert (0 <= q) by nia. now rewrite Z.abs_eq by lia.
Qed.
Lemma fmt_alike d U a b : 0 < U -> (fmt d U a = fmt d U b <-> alike U a b).
Proof.
  intros HU. split.
  - intros E. destruct (fmt_shows d U a HU) as (q & R & Q). destruct (fmt_shows d U b HU) as (q' & R' & Q'). rewrite E, R' in R. injection R as E1 E2. subst q'.
    split; [rewrite <- !Z.ltb_lt, E1; reflexivity|]. rewrite E1 in Q'. eauto.
  - intros [S (r & R1 & R2)]. assert (round_to U a = round_to U b) as E.
    { transitivity r; [apply (rounds_unique U a)|symmetry; apply (rounds_unique U b)]; auto using round_rounds. }
    unfold fmt. rewrite E. assert ((a <? 0) = (b <? 0)) as -> by (destruct (Z.ltb_spec a 0), (Z.ltb_spec b 0); intuition lia). reflexivity.
Qed.

(** no comma in a number *)
Lemma frac_no_comma s : forall acc k r, read_frac acc k s = Some r -> ~ has "," s.
Proof.
  induction s as [|c s IH]; intros acc k r H; cbn in *; [tauto|]. intros [->|Q]; [discriminate H|]. destruct (digit_value c); [|discriminate]. exact (IH _ _ _ H Q).
Qed.
Lemma unsigned_no_comma s : forall acc r, read_unsigned acc s = Some r -> ~ has "," s.
Proof.
  induction s as [|c s IH]; intros acc r H; cbn [read_unsigned has] in *; [tauto|]. intros [->|Q]; [discriminate H|]. destruct (digit_value c); [exact (IH _ _ H Q)|].
  destruct (Ascii.eqb c "."); [|discriminate]. exact (frac_no_comma _ _ _ _ H Q).
Qed.
Lemma number_no_comma s r : read_number s = Some r -> ~ has "," s.
Proof.
  destruct s as [|c s]; [discriminate|]. cbn [read_number]. destruct (Ascii.eqb_spec c "-") as [->|N]; intros H.
  - destruct (read_unsigned 0 s) eqn:E; [|discriminate]. intros [Q|Q]; [discriminate Q|]. exact (unsigned_no_comma _ _ _ E Q).
  - destruct (read_unsigned 0 (String c s)) eqn:E; [|discriminate]. exact (unsigned_no_comma _ _ _ E).
Qed.
Lemma edge_no_comma d U e : 0 < U -> ~ has "," (edge_text d U e).
Proof.
  intros HU. destruct e as [|v|]; cbn [edge_text]; [cbn; intuition discriminate| |cbn; intuition discriminate].
  destruct (fmt_shows d U v HU) as (q & R & _). exact (number_no_comma _ _ R).
Qed.
Lemma fmt_not_inf d U v : 0 < U -> fmt d U v <> "inf" /\ fmt d U v <> "-inf".
Proof.
  intros HU. destruct (fmt_shows d U v HU) as (q & R & _). split; intros E; rewrite E in R; discriminate R.
Qed.
Lemma edge_text_inj d U a b : 0 < U -> edge_text d U a = edge_text d U b ->
  match a, b with NegInf, NegInf => True | PosInf, PosInf => True | Fin x, Fin y => alike U x y | _, _ => False end.
Proof.
  intros HU E. destruct a as [|x|], b as [|y|]; cbn [edge_text] in E; try exact I; try discriminate E.
  - destruct (fmt_not_inf d U y HU) as [_ N]. now apply N.
  - destruct (fmt_not_inf d U x HU) as [_ N]. now apply N.
  - now apply (fmt_alike d).
  - destruct (fmt_not_inf d U x HU) as [N _]. now apply N.
  - destruct (fmt_not_inf d U y HU) as [N _]. now apply N.
Qed.
Lemma interval_inj o1 o2 l1 l2 h1 h2 : ~ has "," l1 -> ~ has "," l2 -> interval_label o1 l1 h1 = interval_label o2 l2 h2 -> o1 = o2 /\ l1 = l2 /\ h1 = h2.
Proof.
  intros N1 N2 E. unfold interval_label in E. assert (o1 = o2) as -> by (destruct o1, o2; [reflexivity|discriminate E|discriminate E|reflexivity]).
  assert (E' : (l1 ++ String "," (String " " (h1 ++ ")")))%string = (l2 ++ String "," (String " " (h2 ++ ")")))%string) by (destruct o2; injection E as E; exact E).
  apply sep_inj in E'; [|assumption|assumption]. destruct E' as [-> E']. injection E' as E'. apply app_inj_r in E'. auto.
Qed.

(** ** labels *)
Definition ends (splits : list Z) : list edge := NegInf :: (map Fin splits ++ [PosInf])%list.
Lemma format_nth d U bins : forall i, nth_error (bin_str_format d U bins) i =
  match nth_error bins i, nth_error bins (S i) with Some a, Some b => Some (interval_label (isinf a) (edge_text d U a) (edge_text d U b)) | _, _ => None end.
Proof.
  induction bins as [|a [|b r] IH]; intros i.
  - destruct i; reflexivity.
  - destruct i as [|[|i]]; reflexivity.
  - destruct i as [|i]; [reflexivity|]. exact (IH i).
Qed.
Lemma format_len d U bins : List.length (bin_str_format d U bins) = pred (List.length bins).
Proof. induction bins as [|a [|b r] IH]; [reflexivity|reflexivity|]. cbn [List.length pred] in *. change (bin_str_format d U (a :: b :: r)) with (interval_label (isinf a) (edge_text d U a) (edge_text d U b) :: bin_str_format d U (b :: r)). cbn [List.length]. now rewrite IH. Qed.
Lemma ends_nth splits i : nth_error (ends splits) i = match i with O => Some NegInf | S k => match nth_error splits k with Some s => Some (Fin s) | None => if Nat.eqb k (List.length splits) then Some PosInf else None end end.
Proof.
  destruct i as [|k]; [reflexivity|]. cbn [ends nth_error]. destruct (nth_error splits k) as [s|] eqn:E.
  - rewrite nth_error_app1; [|rewrite map_length; apply nth_error_Some; congruence]. now rewrite nth_error_map, E.
  - apply nth_error_None in E. rewrite nth_error_app2 by (rewrite map_length; exact E). rewrite map_length. destruct (Nat.eqb_spec k (List.length splits)) as [->|N].
    + now rewrite Nat.sub_diag.
    + destruct (k - List.length splits)%nat as [|m] eqn:F; [lia|]. cbn. now destruct m.
Qed.
Lemma labels_len d U splits : List.length (bin_labels d U splits) = S (List.length splits).
Proof. unfold bin_labels. rewrite format_len. cbn. rewrite app_length, map_length. cbn. lia. Qed.

Lemma alike_convex U a b c : 0 < U -> a <= b -> b <= c -> alike U a c -> alike U a b /\ alike U b c.
Proof.
  intros HU H1 H2 [S (r & R1 & R2)]. assert (E1 : round_to U a = r) by (apply (rounds_unique U a); auto using round_rounds). assert (E2 : round_to U c = r) by (apply (rounds_unique U c); auto using round_rounds).
  pose proof (round_mono U a b HU H1). pose proof (round_mono U b c HU H2). assert (E : round_to U b = r) by lia. pose proof (round_rounds U b HU) as R. rewrite E in R.
  split; (split; [lia|eauto]).
Qed.
Lemma alike_trans U a b c : 0 < U -> alike U a b -> alike U b c -> alike U a c.
Proof.
  intros HU [S1 (r & R1 & R2)] [S2 (r' & R3 & R4)]. assert (r = r') as -> by (apply (rounds_unique U b); assumption). split; [tauto|eauto].
Qed.
Lemma nd_nth splits : nondecreasing splits -> forall i j a b, (i <= j)%nat -> nth_error splits i = Some a -> nth_error splits j = Some b -> a <= b.
Proof.
  induction 1 as [|s r Hr IH Hf]; intros i j a b H Ea Eb; [destruct i; discriminate|]. destruct i as [|i], j as [|j]; cbn in Ea, Eb.
  - injection Ea as ->. injection Eb as ->. lia.
  - injection Ea as ->. rewrite Forall_forall in Hf. apply Hf. eapply nth_error_In, Eb.
  - lia.
  - eapply IH; [|exact Ea|exact Eb]. lia.
Qed.
(** three splits in a row printed alike *)
Definition triple (U : Z) (splits : list Z) : Prop := exists k a b c, nth_error splits k = Some a /\ nth_error splits (S k) = Some b /\ nth_error splits (S (S k)) = Some c /\ alike U a b /\ alike U b c.

Lemma labels_collide d U splits i j l : 0 < U -> nondecreasing splits -> (i < j)%nat -> nth_error (bin_labels d U splits) i = Some l -> nth_error (bin_labels d U splits) j = Some l -> triple U splits.
Proof.
  intros HU N H Ei Ej. unfold bin_labels in Ei, Ej. fold (ends splits) in Ei, Ej. rewrite format_nth in Ei, Ej.
  destruct (nth_error (ends splits) i) as [a1|] eqn:A1; [|discriminate]. destruct (nth_error (ends splits) (S i)) as [b1|] eqn:B1; [|discriminate].
  destruct (nth_error (ends splits) j) as [a2|] eqn:A2; [|discriminate]. destruct (nth_error (ends splits) (S j)) as [b2|] eqn:B2; [|discriminate].
  assert (E : interval_label (isinf a1) (edge_text d U a1) (edge_text d U b1) = interval_label (isinf a2) (edge_text d U a2) (edge_text d U b2)) by congruence.
  apply interval_inj in E; [|now apply edge_no_comma|now apply edge_no_comma]. destruct E as (_ & E1 & E2). apply edge_text_inj in E1; [|exact HU]. apply edge_text_inj in E2; [|exact HU].
  rewrite ends_nth in A1, A2, B1, B2. destruct j as [|j]; [lia|]. destruct (nth_error splits j) as [x2|] eqn:X2.
  2: { destruct (Nat.eqb_spec j (List.length splits)) as [->|]; [|discriminate]. assert (F : nth_error splits (S (List.length splits)) = None) by (apply nth_error_None; lia).
       rewrite F in B2. destruct (Nat.eqb_spec (S (List.length splits)) (List.length splits)); [lia|discriminate]. }
  injection A2 as <-. destruct i as [|i]; [injection A1 as <-; destruct E1|]. destruct (nth_error splits i) as [x1|] eqn:X1.
  2: { apply nth_error_None in X1. assert (nth_error splits j <> None) by congruence. apply nth_error_Some in H0. lia. }
  injection A1 as <-. destruct (nth_error splits (S i)) as [y1|] eqn:Y1.
  2: { apply nth_error_None in Y1. assert (nth_error splits j <> None) by congruence. apply nth_error_Some in H0. lia. }
  injection B1 as <-. destruct (nth_error splits (S j)) as [y2|] eqn:Y2.
  2: { destruct (Nat.eqb (S j) (List.length splits)); [|discriminate]. injection B2 as <-. destruct E2. }
  injection B2 as <-. destruct (nth_error splits (S (S i))) as [z|] eqn:Z1.
  2: { apply nth_error_None in Z1. assert (nth_error splits (S j) <> None) by congruence. apply nth_error_Some in H0. lia. }
  exists i, x1, y1, z. split; [exact X1|]. split; [exact Y1|]. split; [exact Z1|]. split.
  - apply (alike_convex U x1 y1 x2 HU); [eapply nd_nth; [exact N| |exact X1|exact Y1]; lia|eapply nd_nth; [exact N| |exact Y1|exact X2]; lia|exact E1].
  - apply (alike_convex U y1 z y2 HU); [eapply nd_nth; [exact N| |exact Y1|exact Z1]; lia|eapply nd_nth; [exact N| |exact Z1|exact Y2]; lia|exact E2].
Qed.
Lemma triple_dup d U splits : 0 < U -> triple U splits -> ~ NoDup (bin_labels d U splits).
Proof.
  intros HU (k & a & b & c & A & B & C & AB & BC) ND. rewrite NoDup_nth_error in ND.
  assert (L : (S (S k) < List.length splits)%nat) by (apply nth_error_Some; congruence).
  specialize (ND (S k) (S (S k))). assert (S k = S (S k)); [|lia]. apply ND; [rewrite labels_len; lia|].
  unfold bin_labels. fold (ends splits). rewrite !format_nth, !ends_nth, A, B, C. cbn [edge_text isinf].
  assert (fmt d U a = fmt d U b) as -> by now apply fmt_alike. assert (fmt d U b = fmt d U c) as -> by now apply fmt_alike. reflexivity.
Qed.
Lemma labels_nodup d U splits : 0 < U -> nondecreasing splits -> (NoDup (bin_labels d U splits) <-> ~ triple U splits).
Proof.
  intros HU N. split; [intros ND T; exact (triple_dup d U splits HU T ND)|]. intros T. apply NoDup_nth_error. intros i j Hi E.
  destruct (nth_error (bin_labels d U splits) i) as [l|] eqn:El; [|apply nth_error_None in El; lia]. symmetry in E.
  destruct (lt_eq_lt_dec i j) as [[Q|Q]|Q]; [|exact Q|]; exfalso; apply T; [apply (labels_collide d U splits i j l)|apply (labels_collide d U splits j i l)]; assumption.
Qed.
Lemma spaced_no_triple U splits : 0 < U -> (forall k a c, nth_error splits k = Some a -> nth_error splits (S (S k)) = Some c -> U < c - a) -> ~ triple U splits.
Proof.
  intros HU H (k & a & b & c & A & B & C & AB & BC). pose proof (alike_trans U a b c HU AB BC) as [_ (r & (_ & R1 & _) & (_ & R2 & _))]. specialize (H k a c A C). lia.
Qed.
Lemma label_not_word d U splits l : 0 < U -> In l (bin_labels d U splits) -> l <> "Special" /\ l <> "Missing" /\ l <> "unknown".
Proof.
  intros HU H. apply In_nth_error in H. destruct H as (i & E). unfold bin_labels in E. rewrite format_nth in E.
  destruct (nth_error _ i) as [a|]; [|discriminate]. destruct (nth_error _ (S i)) as [b|]; [|discriminate]. injection E as <-.
  unfold interval_label. destruct (isinf a); cbn [append]; repeat split; discriminate.
Qed.
