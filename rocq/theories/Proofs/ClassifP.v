(** Proofs about Model/Classif.v. *)
From Coq Require Import List ZArith QArith Bool Lia Lqa Sorting Permutation.
From Verif Require Import Model.Arr Model.Multi Model.Classif Spec.CoreSpec Spec.ClassifSpec Proofs.MultiP.
Import ListNotations.
Open Scope Z_scope.

Definition b2z (b : bool) : Z := if b then 1 else 0.
Lemma nb_cons b l : nb (b :: l) = b2z b + nb l.
Proof. unfold nb. cbn [count_true]. destruct b; cbn [b2z]; lia. Qed.
Lemma nb_nonneg l : 0 <= nb l. Proof. unfold nb; lia. Qed.
Lemma nb_map_len {A} (p : A -> bool) l : nb (map p l) = Z.of_nat (length (filter p l)).
Proof. induction l as [|a l IH]; [reflexivity|]. cbn [map filter]. rewrite nb_cons, IH. destruct (p a); cbn [b2z length]; lia. Qed.

(** ** Gini *)
Definition cnt (c : bool) (p : Z -> bool) (d : list ysample) : Z := nb (map (fun s => Bool.eqb (fst s) c && p (snd s)) d).
Lemma cnt_cons c p s d : cnt c p (s :: d) = b2z (Bool.eqb (fst s) c && p (snd s)) + cnt c p d.
Proof. unfold cnt. cbn [map]. apply nb_cons. Qed.
Lemma cnt_ext c p q d : (forall s, In s (map snd d) -> p s = q s) -> cnt c p d = cnt c q d.
Proof.
  induction d as [|s d IH]; intros H; [reflexivity|]. rewrite !cnt_cons, IH by (intros; apply H; cbn; auto).
  rewrite (H (snd s)) by (cbn; auto); reflexivity.
Qed.
Lemma cnt_split c t d : cnt c (fun s => t <=? s) d = cnt c (fun s => t <? s) d + cnt c (Z.eqb t) d.
Proof.
  induction d as [|s d IH]; [reflexivity|]. rewrite !cnt_cons, IH.
  destruct (Z.leb_spec t (snd s)), (Z.ltb_spec t (snd s)), (Z.eqb_spec t (snd s)), (Bool.eqb (fst s) c); cbn [andb b2z]; lia.
Qed.
Lemma tps_cnt d t : tps d t = cnt true (fun s => t <=? s) d.
Proof. unfold tps, cnt. f_equal. apply map_ext. intros [[] z]; reflexivity. Qed.
Lemma fps_cnt d t : fps d t = cnt false (fun s => t <=? s) d.
Proof. reflexivity. Qed.
Definition decreasing (l : list Z) : Prop := StronglySorted (fun a b => b < a) l.
Definition pt (d : list ysample) (t : Z) : Z * Z := (fps d t, tps d t).

Lemma trap_sum d : forall ts a0, decreasing ts ->
  (forall s, In s (map snd d) -> In s ts \/ (forall t, In t ts -> t < s)) ->
  (forall t r, ts = t :: r -> a0 = (cnt false (fun s => t <? s) d, cnt true (fun s => t <? s) d)) ->
  trapezoids (a0 :: map (pt d) ts) =
  zsum (map (fun t => cnt false (Z.eqb t) d * (2 * cnt true (fun s => t <? s) d + cnt true (Z.eqb t) d)) ts).
Proof.
  induction ts as [|t ts IH]; intros a0 Hd Hc Ha; [reflexivity|].
  inversion Hd as [|? ? Hd' Ht]; subst. rewrite Forall_forall in Ht. rewrite (Ha t ts eq_refl).
  cbn [map]. remember (map (pt d) ts) as tl0. cbn [trapezoids zsum]. cbn [fst snd]. subst tl0.
  f_equal.
  - unfold pt. cbn [fst snd]. rewrite fps_cnt, tps_cnt, !cnt_split. ring.
  - apply IH; auto.
    + intros s Hs. destruct (Hc s Hs) as [[<-|Hin]|Hall]; [right; exact Ht|now left|right; intros; apply Hall; now right].
    + intros t' r ->. unfold pt. rewrite fps_cnt, tps_cnt.
      assert (E : forall s, In s (map snd d) -> (t <=? s) = (t' <? s)).
      { intros s Hs. specialize (Ht t' (or_introl eq_refl)). apply eq_true_iff_eq. rewrite Z.leb_le, Z.ltb_lt. split; [lia|].
        intros Hlt. destruct (Hc s Hs) as [[<-|[<-|Hin]]|Hall]; try lia.
        - inversion Hd' as [|? ? _ F]; subst. rewrite Forall_forall in F. specialize (F s Hin). lia.
        - specialize (Hall t (or_introl eq_refl)). lia. }
      f_equal; apply cnt_ext; exact E.
Qed.
Lemma zsum_app a b : zsum (a ++ b) = zsum a + zsum b.
Proof. induction a as [|x a IH]; cbn [app zsum]; lia. Qed.
Lemma zsum_zero {A} (f : A -> Z) l : (forall a, In a l -> f a = 0) -> zsum (map f l) = 0.
Proof. induction l as [|a l IH]; intros H; cbn [map zsum]; [reflexivity|]. rewrite H by (now left). rewrite IH; [lia|]. intros; apply H; now right. Qed.
Lemma zsum_plus {A} (f g : A -> Z) l : zsum (map (fun a => f a + g a) l) = zsum (map f l) + zsum (map g l).
Proof. induction l as [|a l IH]; cbn [map zsum]; lia. Qed.
Lemma zsum_ext {A} (f g : A -> Z) l : (forall a, In a l -> f a = g a) -> zsum (map f l) = zsum (map g l).
Proof. induction l as [|a l IH]; intros H; cbn [map zsum]; [reflexivity|]. rewrite H by (now left). rewrite IH; auto. intros; apply H; now right. Qed.

Lemma sum_at ts a (f : Z -> Z) : NoDup ts -> In a ts -> zsum (map (fun t => b2z (t =? a) * f t) ts) = f a.
Proof.
  induction ts as [|t ts IH]; intros Hn Hin; [destruct Hin|]. inversion Hn; subst. cbn [map zsum].
  destruct (Z.eqb_spec t a) as [->|Hne]; cbn [b2z].
  - rewrite zsum_zero; [lia|]. intros t' Ht'. destruct (Z.eqb_spec t' a) as [->|]; [contradiction|cbn [b2z]; lia].
  - destruct Hin as [E|Hin]; [congruence|]. rewrite IH by assumption. lia.
Qed.
Lemma sum_by_value (f : Z -> Z) ts d : NoDup ts -> (forall s, In s (map snd d) -> In s ts) ->
  zsum (map (fun t => cnt false (Z.eqb t) d * f t) ts) = zsum (map f (nonevents d)).
Proof.
  intros Hn. induction d as [|s d IH]; intros H.
  - cbn [nonevents filter map zsum]. apply zsum_zero. reflexivity.
  - assert (EN : nonevents (s :: d) = if fst s then nonevents d else snd s :: nonevents d) by (unfold nonevents; cbn [filter]; destruct (fst s); reflexivity).
    rewrite EN. clear EN.
    rewrite (zsum_ext _ (fun t => b2z (Bool.eqb (fst s) false && (t =? snd s)) * f t + cnt false (Z.eqb t) d * f t)).
    2:{ intros t _. rewrite cnt_cons. ring. }
    rewrite zsum_plus, IH by (intros; apply H; cbn; auto).
    destruct (fst s).
    + rewrite zsum_zero; [lia|]. intros. reflexivity.
    + cbn [Bool.eqb andb map zsum]. rewrite sum_at by (auto; apply H; cbn; auto). reflexivity.
Qed.
Lemma cnt_true_events p d : cnt true p d = Z.of_nat (length (filter p (events d))).
Proof.
  induction d as [|s d IH]; [reflexivity|]. rewrite cnt_cons, IH.
  assert (EN : events (s :: d) = if fst s then snd s :: events d else events d) by (unfold events; cbn [filter]; destruct (fst s); reflexivity).
  rewrite EN. destruct s as [b z]. cbn [fst snd]. destruct b; cbn [Bool.eqb andb filter]; [|reflexivity]. destruct (p z); cbn [b2z length]; lia.
Qed.
Lemma pairs_sum (p : Z -> Z -> bool) (E N : list Z) :
  Z.of_nat (length (filter (fun ab => p (fst ab) (snd ab)) (list_prod E N))) =
  zsum (map (fun n => Z.of_nat (length (filter (fun e => p e n) E))) N).
Proof.
  induction E as [|e E IH]; cbn [list_prod filter length].
  - symmetry. apply zsum_zero. reflexivity.
  - rewrite filter_app, app_length, Nat2Z.inj_add, IH.
    rewrite (zsum_ext (fun n => Z.of_nat (length (if p e n then e :: filter (fun e0 => p e0 n) E else filter (fun e0 => p e0 n) E)))
              (fun n => b2z (p e n) + Z.of_nat (length (filter (fun e0 => p e0 n) E)))).
    2:{ intros n _. destruct (p e n); cbn [length b2z]; lia. }
    rewrite zsum_plus. f_equal. clear IH. induction N as [|n N IHN]; [reflexivity|].
    cbn [map filter fst snd zsum]. rewrite <- IHN. destruct (p e n); cbn [length b2z]; lia.
Qed.
Lemma three_way {A} (p q r : A -> bool) l : (forall a, b2z (p a) + b2z (q a) + b2z (r a) = 1) ->
  Z.of_nat (length (filter p l)) + Z.of_nat (length (filter q l)) + Z.of_nat (length (filter r l)) = Z.of_nat (length l).
Proof.
  intros H. induction l as [|a l IH]; [reflexivity|]. cbn [filter]. specialize (H a).
  destruct (p a), (q a), (r a); cbn [b2z length] in *; lia.
Qed.
Lemma events_len d : Z.of_nat (length (events d)) = n_event d.
Proof. unfold events, n_event. rewrite map_length. now rewrite nb_map_len. Qed.
Lemma nonevents_len d : Z.of_nat (length (nonevents d)) = n_nonevent d.
Proof.
  unfold nonevents, n_nonevent, n_event. rewrite map_length, nb_map_len.
  induction d as [|[[] z] d IH]; [reflexivity| |]; cbn [filter fst negb length] in *; lia.
Qed.
Definition ties := pairs (fun e n => e =? n).
Lemma trap_pairs d : trapezoids (roc d) = 2 * concordant d + ties d.
Proof.
  unfold roc. change (map (fun t => (fps d t, tps d t)) (thresholds d)) with (map (pt d) (thresholds d)).
  assert (Hin : forall s, In s (map snd d) -> In s (thresholds d)).
  { intros s Hs. unfold thresholds. rewrite <- in_rev. now apply np_unique_In. }
  assert (Hdec : decreasing (thresholds d)).
  { unfold thresholds. pose proof (np_unique_sorted (map snd d)) as H. revert H. generalize (np_unique (map snd d)).
    intros u. unfold increasing, decreasing. induction 1 as [|a l Hl IH Ha]; cbn [rev]; [constructor|].
    rewrite Forall_forall in Ha. assert (Hr : forall x, In x (rev l) -> a < x) by (intros x Hx; apply Ha; now apply in_rev).
    clear Ha Hl. revert IH Hr. generalize (rev l). intros m. induction m as [|b m IHm]; intros Hs Hr; cbn [app].
    - constructor; constructor.
    - inversion Hs as [|? ? Hs' Hb]; subst. constructor; [apply IHm; auto; intros; apply Hr; now right|].
      rewrite Forall_forall in *. intros x Hx. apply in_app_or in Hx. destruct Hx as [Hx|[<-|[]]]; [now apply Hb|apply Hr; now left]. }
  rewrite trap_sum; auto.
  - rewrite (sum_by_value (fun t => 2 * cnt true (fun s => t <? s) d + cnt true (Z.eqb t) d)); auto.
    + unfold concordant, ties, pairs. rewrite (pairs_sum (fun e n => n <? e)), (pairs_sum (fun e n => e =? n)).
      rewrite <- Z.add_diag, <- !zsum_plus. apply zsum_ext. intros n _. rewrite !cnt_true_events.
      assert (E : filter (Z.eqb n) (events d) = filter (fun e => e =? n) (events d)) by (apply filter_ext; intros; apply Z.eqb_sym).
      rewrite E. lia.
    + clear -Hdec. unfold decreasing in Hdec. induction Hdec as [|a l Hl IH Ha]; constructor; auto.
      rewrite Forall_forall in Ha. intros K. specialize (Ha a K). lia.
  - intros t r E. assert (Hmax : forall s, In s (map snd d) -> s <= t).
    { intros s Hs. specialize (Hin s Hs). rewrite E in Hin, Hdec. destruct Hin as [<-|Hin]; [lia|].
      inversion Hdec as [|? ? _ F]; subst. rewrite Forall_forall in F. specialize (F s Hin). lia. }
    assert (Z0 : forall c, cnt c (fun s => t <? s) d = 0).
    { intros c. rewrite (cnt_ext c _ (fun _ => false)).
      - clear. induction d as [|s d IH]; [reflexivity|]. rewrite cnt_cons, IH, andb_false_r. reflexivity.
      - intros s Hs. specialize (Hmax s Hs). apply Z.ltb_ge. lia. }
    rewrite !Z0. reflexivity.
Qed.
Lemma pairs_total d : concordant d + discordant d + ties d = n_event d * n_nonevent d.
Proof.
  unfold concordant, discordant, ties, pairs.
  rewrite (three_way (fun ab => snd ab <? fst ab) (fun ab => fst ab <? snd ab) (fun ab => fst ab =? snd ab) (list_prod (events d) (nonevents d))).
  - rewrite prod_length, Nat2Z.inj_mul, events_len, nonevents_len. reflexivity.
  - intros [a b]. cbn [fst snd]. destruct (Z.ltb_spec b a), (Z.ltb_spec a b), (Z.eqb_spec a b); cbn [b2z]; lia.
Qed.

(** ** KS *)
Lemma first_max_spec l : forall pre best pos, nth_error pre pos = Some best ->
  (forall q, In q pre -> (q <= best)%Q) ->
  let r := first_max l (length pre) best pos in
  nth_error (pre ++ l) (snd r) = Some (fst r) /\ forall q, In q (pre ++ l) -> (q <= fst r)%Q.
Proof.
  induction l as [|a l IH]; intros pre best pos Hp Hm; cbn [first_max].
  - rewrite app_nil_r. auto.
  - replace (pre ++ a :: l) with ((pre ++ [a]) ++ l) by (now rewrite <- app_assoc).
    replace (S (length pre)) with (length (pre ++ [a])) by (rewrite app_length; cbn; lia).
    assert (Hlt : (pos < length pre)%nat) by (apply nth_error_Some; congruence).
    destruct (Qle_bool a best) eqn:E.
    + apply Qle_bool_iff in E. apply IH.
      * rewrite nth_error_app1 by exact Hlt. exact Hp.
      * intros q Hq. apply in_app_or in Hq. destruct Hq as [Hq|[<-|[]]]; auto.
    + assert (Hab : (best < a)%Q) by (apply Qnot_le_lt; intros K; apply Qle_bool_iff in K; congruence).
      apply IH.
      * rewrite nth_error_app2 by lia. now rewrite Nat.sub_diag.
      * intros q Hq. apply in_app_or in Hq. destruct Hq as [Hq|[<-|[]]]; [specialize (Hm q Hq); lra|lra].
Qed.
Lemma count_label_cons b x l : count_label b (x :: l) = b2z (Bool.eqb b x) + count_label b l.
Proof. unfold count_label. cbn [filter]. destruct (Bool.eqb b x); cbn [length b2z]; lia. Qed.
Lemma count_label_nb l : count_label true l = nb l.
Proof. induction l as [|x l IH]; [reflexivity|]. rewrite count_label_cons, nb_cons, IH. now destruct x. Qed.
Lemma count_label_sum l : count_label false l + count_label true l = Z.of_nat (length l).
Proof. induction l as [|x l IH]; [reflexivity|]. rewrite !count_label_cons. cbn [length]. destruct x; cbn [Bool.eqb b2z]; lia. Qed.
Lemma p_diffs_nth ne nn yy : forall i cum k, (k < length yy)%nat ->
  nth_error (p_diffs ne nn i cum yy) k =
  Some (let c := (cum + count_label true (firstn (S k) yy))%Z in
        inject_Z (i + Z.of_nat k - c) / inject_Z nn - inject_Z c / inject_Z ne)%Q.
Proof.
  induction yy as [|y yy IH]; intros i cum k Hk; [cbn in Hk; lia|]. cbn [p_diffs]. cbv zeta. destruct k as [|k].
  - cbn [nth_error firstn]. rewrite count_label_cons. unfold count_label. cbn [filter length Z.of_nat]. do 3 f_equal; destruct y; cbn [Bool.eqb b2z]; f_equal; try lia; f_equal; lia.
  - cbn [nth_error]. rewrite IH by (cbn in Hk; lia). cbv zeta.
    replace (firstn (S (S k)) (y :: yy)) with (y :: firstn (S k) yy) by reflexivity. rewrite count_label_cons.
    replace (cum + (if y then 1 else 0) + count_label true (firstn (S k) yy)) with
      (cum + (b2z (Bool.eqb true y) + count_label true (firstn (S k) yy))) by (destruct y; cbn [Bool.eqb b2z]; lia).
    replace (i + 1 + Z.of_nat k) with (i + Z.of_nat (S k)) by lia. reflexivity.
Qed.
Lemma p_diffs_len ne nn yy : forall i cum, length (p_diffs ne nn i cum yy) = length yy.
Proof. induction yy as [|y yy IH]; intros; cbn [p_diffs length]; auto. Qed.
Lemma p_diff_share yy k : 0 < count_label false yy -> (1 <= k <= length yy)%nat ->
  exists q, nth_error (p_diffs (nb yy) (Z.of_nat (length yy) - nb yy) 0 0 yy) (k - 1) = Some q /\
    (q == share_among false yy k - share_among true yy k - 1 / inject_Z (count_label false yy))%Q.
Proof.
  intros Hn Hk. rewrite p_diffs_nth by lia. eexists. split; [reflexivity|]. cbv zeta.
  replace (S (k - 1)) with k by lia. unfold share_among.
  pose proof (count_label_sum yy) as S1. pose proof (count_label_sum (firstn k yy)) as S2. rewrite firstn_length_le in S2 by lia.
  rewrite <- count_label_nb. replace (Z.of_nat (length yy) - count_label true yy) with (count_label false yy) by lia.
  replace (0 + Z.of_nat (k - 1) - (0 + count_label true (firstn k yy))) with (count_label false (firstn k yy) + - (1)) by lia.
  rewrite Z.add_0_l, inject_Z_plus. change (inject_Z (- (1))) with (-1)%Q. unfold Qdiv. ring.
Qed.
Lemma ks_is_ks yy v pos : 0 < count_label false yy -> ks yy = Some (v, pos) ->
  is_ks yy (v + 1 / inject_Z (count_label false yy))%Q /\
  (pos < length yy)%nat /\ (share_among false yy (S pos) - share_among true yy (S pos) == v + 1 / inject_Z (count_label false yy))%Q.
Proof.
  intros Hn H. unfold ks in H.
  pose proof (p_diffs_len (nb yy) (Z.of_nat (length yy) - nb yy) yy 0 0) as Len.
  pose proof (p_diff_share yy) as P. specialize (fun k => P k Hn).
  destruct (p_diffs _ _ 0 0 yy) as [|a r] eqn:E; [discriminate|]. injection H as H.
  destruct (first_max_spec r [a] a 0%nat eq_refl) as [M1 M2].
  { intros q [<-|[]]. lra. }
  cbn [length] in M1, M2. rewrite H in M1, M2. cbn [fst snd app] in M1, M2.
  assert (Hpos : (pos < length yy)%nat) by (rewrite <- Len; apply nth_error_Some; congruence).
  destruct (P (S pos) ltac:(lia)) as (q & Hq & Eq). replace (S pos - 1)%nat with pos in Hq by lia.
  rewrite M1 in Hq. injection Hq as <-. split; [split|].
  - exists (S pos). split; [lia|]. lra.
  - intros k Hk. destruct (P k Hk) as (q & Hq & Eq'). apply nth_error_In in Hq. specialize (M2 q Hq). lra.
  - split; [exact Hpos|]. lra.
Qed.
Lemma is_ks_unique yy a b : is_ks yy a -> is_ks yy b -> (a == b)%Q.
Proof.
  intros [(k & Hk & Ea) Ha] [(j & Hj & Eb) Hb]. specialize (Ha j Hj). specialize (Hb k Hk). lra.
Qed.
Lemma count_firstn_le b yy k : 0 <= count_label b (firstn k yy) <= count_label b yy.
Proof.
  pose proof (f_equal (count_label b) (firstn_skipn k yy)) as E. unfold count_label in *. rewrite filter_app, app_length in E. lia.
Qed.
Lemma share_range b yy k : 0 < count_label b yy -> (0 <= share_among b yy k <= 1)%Q.
Proof.
  intros H. pose proof (count_firstn_le b yy k) as [H1 H2]. unfold share_among.
  assert (P : (0 < inject_Z (count_label b yy))%Q) by (unfold Qlt, inject_Z; cbn; lia). split.
  - apply Qle_shift_div_l; [exact P|]. rewrite Qmult_0_l. unfold Qle, inject_Z; cbn; lia.
  - apply Qle_shift_div_r; [exact P|]. rewrite Qmult_1_l. unfold Qle, inject_Z; cbn; lia.
Qed.
(** perfectly separated data *)
Lemma separated_labels d' : StronglySorted (fun a b : ysample => snd a <= snd b) d' ->
  (forall e n, In e (events d') -> In n (nonevents d') -> n < e) ->
  exists a b, map fst d' = repeat false a ++ repeat true b.
Proof.
  induction 1 as [|s d' Hd IH Hs]; intros Hsep.
  - exists 0%nat, 0%nat. reflexivity.
  - destruct s as [[] z]; cbn [map fst].
    + (* an event: everything after is an event *)
      exists 0%nat, (S (length d')). cbn [repeat app]. f_equal. clear IH Hd.
      assert (K : forall t, In t d' -> fst t = true).
      { intros [[] w] Hin; [reflexivity|exfalso]. rewrite Forall_forall in Hs. specialize (Hs _ Hin). cbn [snd] in Hs.
        specialize (Hsep z w). assert (w < z); [|lia]. apply Hsep.
        - unfold events. cbn [filter fst map snd]. now left.
        - unfold nonevents. cbn [filter fst negb]. change w with (snd (false, w)). apply in_map. apply filter_In. auto. }
      clear Hs Hsep. induction d' as [|t d' IHd]; [reflexivity|]. cbn [map length repeat]. rewrite K by (now left). f_equal.
      apply IHd. intros; apply K; now right.
    + destruct IH as (a & b & E).
      { intros e n He Hn. apply Hsep; [exact He|]. unfold nonevents. cbn [filter fst negb map snd]. now right. }
      exists (S a), b. rewrite E. reflexivity.
Qed.
Lemma perfect_is_ks a b : (0 < a)%nat -> (0 < b)%nat -> is_ks (repeat false a ++ repeat true b) 1%Q.
Proof.
  intros Ha Hb. set (yy := repeat false a ++ repeat true b).
  assert (CR : forall c x n, count_label c (repeat x n) = if Bool.eqb c x then Z.of_nat n else 0).
  { intros c x n. induction n as [|n IH]; [now destruct (Bool.eqb c x)|]. cbn [repeat]. rewrite count_label_cons, IH.
    destruct (Bool.eqb c x); cbn [b2z]; lia. }
  assert (CA : forall c x y, count_label c (x ++ y) = count_label c x + count_label c y).
  { intros. unfold count_label. rewrite filter_app, app_length. lia. }
  assert (C0 : count_label false yy = Z.of_nat a) by (unfold yy; rewrite CA, !CR; cbn; lia).
  assert (C1 : count_label true yy = Z.of_nat b) by (unfold yy; rewrite CA, !CR; cbn; lia).
  split.
  - exists a. split; [unfold yy; rewrite app_length, !repeat_length; lia|]. unfold share_among. rewrite C0, C1.
    assert (F : firstn a yy = repeat false a).
    { unfold yy. rewrite firstn_app, repeat_length, Nat.sub_diag. cbn [firstn]. rewrite app_nil_r.
      rewrite <- (repeat_length false a) at 1. apply firstn_all. }
    rewrite F, !CR. cbn [Bool.eqb]. change (inject_Z 0) with 0%Q. field. split; unfold Qeq, inject_Z; cbn; lia.
  - intros k _. pose proof (share_range false yy k ltac:(lia)). pose proof (share_range true yy k ltac:(lia)). lra.
Qed.
