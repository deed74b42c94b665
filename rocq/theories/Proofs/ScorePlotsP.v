(** The sorted records behind the CAP and KS figures. *)
From Coq Require Import List ZArith QArith Bool Arith Lia Sorting Permutation.
From Verif Require Import Model.Arr Model.ScorePlots Spec.ScorePlotsSpec Proofs.ArrP.
Import ListNotations.
Open Scope nat_scope.

Lemma prefix_filter {A} (P : A -> bool) (R : A -> A -> Prop) L : StronglySorted R L -> (forall a b, R a b -> P b = true -> P a = true) ->
  firstn (length (filter P L)) L = filter P L.
Proof.
  induction L as [|a L IH]; intros HS H; [reflexivity|]. inversion HS as [|? ? HL Ha]; subst. cbn [filter]. destruct (P a) eqn:E.
  - cbn [length firstn]. f_equal. now apply IH.
  - assert (F : filter P L = []).
    { rewrite Forall_forall in Ha. destruct (filter P L) as [|b r] eqn:Ef; [reflexivity|].
      assert (In b (filter P L)) as Hb by (rewrite Ef; now left). apply filter_In in Hb as [Hb Pb]. specialize (H a b (Ha b Hb) Pb). congruence. }
    now rewrite F.
Qed.
Lemma filter_permutation {A} (f : A -> bool) a b : Permutation a b -> Permutation (filter f a) (filter f b).
Proof.
  induction 1; cbn [filter]; [constructor| | |eapply Permutation_trans; eassumption].
  - destruct (f x); [now constructor|assumption].
  - destruct (f x), (f y); try apply Permutation_refl. apply perm_swap.
Qed.
Lemma nth_cumsum : forall l acc i d, i < length l -> nth i (cumsum acc l) d = (acc + zsum (firstn (S i) l))%Z.
Proof.
  induction l as [|x l IH]; intros acc i d H; [cbn in H; lia|]. destruct i as [|i]; cbn [cumsum nth].
  - change (firstn 1 (x :: l)) with [x]. change (zsum [x]) with (x + 0)%Z. lia.
  - rewrite IH by (cbn in H; lia). change (firstn (S (S i)) (x :: l)) with (x :: firstn (S i) l). change (zsum (x :: firstn (S i) l)) with (x + zsum (firstn (S i) l))%Z. lia.
Qed.
Lemma cumsum_length : forall l acc, length (cumsum acc l) = length l.
Proof. induction l as [|x l IH]; intros acc; cbn [cumsum length]; [reflexivity|now rewrite IH]. Qed.
Lemma nth_cumsum0 l i d : i <= length l -> nth i (0%Z :: cumsum 0 l) d = zsum (firstn i l).
Proof. intros H. destruct i as [|i]; [reflexivity|]. cbn [nth]. rewrite nth_cumsum by lia. reflexivity. Qed.

(** targets are 0 or 1 *)
Definition bin01 (l : list (Z * Z)) : Prop := forall r, In r l -> (fst r = 0 \/ fst r = 1)%Z.
Definition num (l : list (Z * Z)) (cls : option Z) (f : Z -> bool) : Z :=
  Z.of_nat (length (filter (fun r => (match cls with Some c => (fst r =? c)%Z | None => true end) && f (snd r)) l)).
Lemma num_eq y p cls f : number y p cls f = num (combine y p) cls f.
Proof. reflexivity. Qed.
Lemma num_perm a b cls f : Permutation a b -> num a cls f = num b cls f.
Proof. intros H. unfold num. f_equal. apply Permutation_length. now apply filter_permutation. Qed.
Lemma num_nonneg l cls f : (0 <= num l cls f)%Z.
Proof. unfold num. lia. Qed.
Lemma num_cons r l cls f : num (r :: l) cls f = ((if (match cls with Some c => (fst r =? c)%Z | None => true end) && f (snd r) then 1 else 0) + num l cls f)%Z.
Proof. unfold num. cbn [filter]. destruct (_ && _); cbn [length]; lia. Qed.
Lemma num_le l cls f : (num l cls f <= num l cls (fun _ => true))%Z.
Proof.
  induction l as [|r l IH]; [reflexivity|]. rewrite !num_cons. destruct (match cls with Some c => (fst r =? c)%Z | None => true end); cbn [andb]; [destruct (f (snd r))|]; lia.
Qed.
Lemma num_split l f : bin01 l -> num l None f = (num l (Some 1%Z) f + num l (Some 0%Z) f)%Z.
Proof.
  induction l as [|r l IH]; intros H; [reflexivity|]. rewrite !num_cons. rewrite IH by (intros x Hx; apply H; now right). cbn [andb].
  destruct (H r (or_introl eq_refl)) as [E|E]; rewrite E; cbn [Z.eqb andb Pos.eqb]; destruct (f (snd r)); lia.
Qed.
Lemma num_all l : num l None (fun _ => true) = Z.of_nat (length l).
Proof. induction l as [|r l IH]; [reflexivity|]. rewrite num_cons, IH. cbn [andb length]. lia. Qed.
Lemma zsum_events l : bin01 l -> zsum (map fst l) = num l (Some 1%Z) (fun _ => true).
Proof.
  induction l as [|r l IH]; intros H; [reflexivity|]. rewrite num_cons. cbn [map zsum]. rewrite IH by (intros x Hx; apply H; now right).
  destruct (H r (or_introl eq_refl)) as [E|E]; rewrite E; reflexivity.
Qed.
Lemma num_filter l cls f g : num (filter (fun r => f (snd r)) l) cls g = num l cls (fun s => f s && g s).
Proof.
  induction l as [|r l IH]; [reflexivity|]. rewrite num_cons. cbn [filter]. destruct (f (snd r)); [rewrite num_cons, IH; cbn [andb]; reflexivity|].
  rewrite IH. cbn [andb]. rewrite andb_false_r. lia.
Qed.
Lemma num_ext l cls f g : (forall s, f s = g s) -> num l cls f = num l cls g.
Proof. intros H. unfold num. f_equal. f_equal. apply filter_ext. intros r. now rewrite H. Qed.

(** ** the records in the order of argsort *)
Section Sorted.
Variables (argsort : list Z -> list nat) (y p : list Z).
Hypothesis HA : argsort_ok argsort.
Hypothesis HL : length y = length p.
Definition srt : list (Z * Z) := map (fun i => (nth i y 0%Z, nth i p 0%Z)) (argsort p).
Lemma srt_y : take 0%Z y (argsort p) = map fst srt.
Proof. unfold take, srt. now rewrite map_map. Qed.
Lemma srt_p : take 0%Z p (argsort p) = map snd srt.
Proof. unfold take, srt. now rewrite map_map. Qed.
Lemma srt_rev_y : take 0%Z y (rev (argsort p)) = map fst (rev srt).
Proof. unfold take, srt. rewrite map_rev, map_rev. f_equal. now rewrite map_map. Qed.
Lemma srt_perm : Permutation srt (combine y p).
Proof.
  assert (E : combine y p = map (fun i => (nth i y 0%Z, nth i p 0%Z)) (seq 0 (length p))).
  { clear -HL. revert p HL. induction y as [|a l IH]; intros [|b m] L; try discriminate; [reflexivity|]. cbn [combine length seq map nth]. f_equal.
    rewrite <- seq_shift, map_map. apply IH. cbn in L. lia. }
  rewrite E. unfold srt. apply Permutation_map. apply (HA p).
Qed.
Lemma srt_sorted : StronglySorted (fun a b => (snd a <= snd b)%Z) srt.
Proof.
  destruct (HA p) as [_ H]. unfold srt. induction (argsort p) as [|i l IH]; [constructor|]. cbn [map] in *. inversion H as [|? ? Hr Hx]; subst.
  constructor; [now apply IH|]. rewrite Forall_map in *. exact Hx.
Qed.
Lemma srt_length : length srt = length y.
Proof. rewrite (Permutation_length srt_perm), combine_length. lia. Qed.
Lemma sorted_rev {A} (R : A -> A -> Prop) l : StronglySorted R l -> StronglySorted (fun a b => R b a) (rev l).
Proof.
  induction 1 as [|a l Hl IH Ha]; [constructor|]. cbn [rev]. rewrite Forall_forall in Ha.
  assert (G : forall b, In b (rev l) -> R a b) by (intros b Hb; apply Ha; now apply in_rev). clear Ha Hl. induction IH as [|b m Hm IHm Hb]; cbn [app].
  - constructor; [constructor|constructor].
  - constructor; [apply IHm; intros x Hx; apply G; now right|]. apply Forall_app. split; [exact Hb|]. constructor; [apply G; now left|constructor].
Qed.
Lemma srt_bin : (forall v, In v y -> v = 0 \/ v = 1)%Z -> bin01 srt.
Proof. intros H r Hr. apply (Permutation_in _ srt_perm) in Hr. destruct r as [a b]. apply H. cbn [fst]. now apply in_combine_l in Hr. Qed.
Lemma srt_upto t : firstn (length (filter (fun r => (snd r <=? t)%Z) srt)) srt = filter (fun r => (snd r <=? t)%Z) srt.
Proof. apply (prefix_filter _ _ _ srt_sorted). intros a b L Hb. apply Z.leb_le in Hb. apply Z.leb_le. lia. Qed.
Lemma srt_above t : firstn (length (filter (fun r => (t <? snd r)%Z) (rev srt))) (rev srt) = filter (fun r => (t <? snd r)%Z) (rev srt).
Proof. apply (prefix_filter _ _ _ (sorted_rev _ _ srt_sorted)). intros a b L Hb. cbn in L. apply Z.ltb_lt in Hb. apply Z.ltb_lt. lia. Qed.
End Sorted.

(** ** areas and pairs *)
(** twice the area under the polygon through the cumulative counts *)
Fixpoint twice (acc : Z) (l : list (Z * Z)) : Z := match l with [] => 0%Z | r :: t => (2 * acc + fst r + twice (acc + fst r) t)%Z end.
(** pairs with the event before the non-event *)
Fixpoint before (l : list (Z * Z)) : Z := match l with [] => 0%Z | r :: t => ((if (fst r =? 1)%Z then num t (Some 0%Z) (fun _ => true) else 0) + before t)%Z end.
Definition prs (l : list (Z * Z)) (f : Z -> Z -> bool) : Z := zsum (map (fun r => if (fst r =? 1)%Z then num l (Some 0%Z) (f (snd r)) else 0%Z) l).
Lemma prs_eq y p f : pairs y p f = prs (combine y p) f.
Proof. reflexivity. Qed.
Lemma prs_perm a b f : Permutation a b -> prs a f = prs b f.
Proof.
  intros H. unfold prs. transitivity (zsum (map (fun r => if (fst r =? 1)%Z then num b (Some 0%Z) (f (snd r)) else 0%Z) a)).
  - f_equal. apply map_ext. intros r. now rewrite (num_perm _ _ _ _ H).
  - apply zsum_perm. now apply Permutation_map.
Qed.
(** the pairs whose second record is [x] *)
Definition onto (l : list (Z * Z)) (x : Z) (f : Z -> Z -> bool) : Z := zsum (map (fun r => if (fst r =? 1)%Z then if f (snd r) x then 1 else 0 else 0)%Z l).
Lemma prs_cons r l f : prs (r :: l) f =
  ((if (fst r =? 1)%Z then num (r :: l) (Some 0%Z) (f (snd r)) else 0) + (if (fst r =? 0)%Z then onto l (snd r) f else 0) + prs l f)%Z.
Proof.
  unfold prs, onto. cbn [map zsum]. enough (E : forall m : list (Z * Z), zsum (map (fun q => if (fst q =? 1)%Z then num (r :: l) (Some 0%Z) (f (snd q)) else 0%Z) m) =
     ((if (fst r =? 0)%Z then zsum (map (fun q => if (fst q =? 1)%Z then if f (snd q) (snd r) then 1 else 0 else 0)%Z m) else 0) +
      zsum (map (fun q => if (fst q =? 1)%Z then num l (Some 0%Z) (f (snd q)) else 0%Z) m))%Z) by (rewrite (E l); lia).
  induction m as [|q m IH]; cbn [map zsum]; [destruct (fst r =? 0)%Z; reflexivity|]. rewrite IH, num_cons.
  destruct (fst r =? 0)%Z; cbn [andb]; destruct (fst q =? 1)%Z; destruct (f (snd q) (snd r)); lia.
Qed.
Lemma twice_eq : forall l acc, bin01 l -> let E := num l (Some 1%Z) (fun _ => true) in twice acc l = (2 * before l + 2 * acc * num l None (fun _ => true) + E * E)%Z.
Proof.
  induction l as [|r l IH]; intros acc H; [cbn; lia|]. assert (Hl : bin01 l) by (intros x Hx; apply H; now right).
  cbn [twice before]. cbv zeta. rewrite IH by exact Hl. rewrite !num_cons. rewrite (num_split l (fun _ => true) Hl). cbn [andb].
  destruct (H r (or_introl eq_refl)) as [E|E]; rewrite E; cbn [Z.eqb Pos.eqb andb]; nia.
Qed.
