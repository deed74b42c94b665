(** Proofs about Model/Monitor.v. *)
From Coq Require Import List ZArith QArith Reals Bool Lia Lra Sorting.
From Verif Require Import Model.Arr Model.Core Model.Metrics Model.Monitor Spec.CoreSpec Spec.MetricsSpec Spec.MonitorSpec Proofs.MetricsP.
Import ListNotations.
Open Scope Z_scope.

(** ** PSI *)
Definition fin_row (ta te : Z) (r : Z * Z) : R := jeffrey1 (IZR (fst r) / IZR ta) (IZR (snd r) / IZR te).
Lemma psi_row_fin ta te r : ta <> 0 -> te <> 0 -> 0 < fst r -> 0 < snd r -> psi_row ta te r = XFin (fin_row ta te r).
Proof.
  destruct r as [a e]. cbn [fst snd]. intros A E Ha He. unfold psi_row, fin_row. cbn [fst snd].
  destruct (Z.eqb_spec ta 0), (Z.eqb_spec te 0), (Z.eqb_spec e 0), (Z.eqb_spec a 0); try lia. reflexivity.
Qed.
Lemma xsum_fin {A} (f : A -> xreal) (g : A -> R) l : (forall r, In r l -> f r = XFin (g r)) -> xsum (map f l) = XFin (rsum (map g l)).
Proof.
  induction l as [|a l IH]; intros H; cbn [map xsum rsum]; [reflexivity|].
  rewrite (H a) by (now left). rewrite IH by (intros; apply H; now right). reflexivity.
Qed.
Lemma sums_pos rows : rows <> [] -> all_positive rows -> 0 < zsum (map fst rows) /\ 0 < zsum (map snd rows).
Proof.
  intros Hn H. destruct rows as [|r rows]; [congruence|].
  assert (G : forall l, all_positive l -> 0 <= zsum (map fst l) /\ 0 <= zsum (map snd l)).
  { induction l as [|x l IH]; intros K; cbn [map zsum]; [lia|]. destruct (K x (or_introl eq_refl)).
    destruct IH; [intros y Hy; apply K; now right|]. lia. }
  destruct (G rows) as [G1 G2]; [intros y Hy; apply H; now right|].
  destruct (H r (or_introl eq_refl)). cbn [map zsum]. lia.
Qed.
Lemma psi_total_fin rows : rows <> [] -> all_positive rows ->
  psi_total rows = XFin (rsum (map (fin_row (zsum (map fst rows)) (zsum (map snd rows))) rows)).
Proof.
  intros Hn H. destruct (sums_pos rows Hn H). unfold psi_total, psi_column. cbv zeta. apply xsum_fin.
  intros r Hr. destruct (H r Hr). apply psi_row_fin; lia.
Qed.
Lemma share_pos a t : 0 < a -> 0 < t -> (0 < IZR a / IZR t)%R.
Proof. intros. apply div_pos; now apply IZR_lt. Qed.
Lemma fin_row_nonneg ta te r : 0 < ta -> 0 < te -> 0 < fst r -> 0 < snd r -> (0 <= fin_row ta te r)%R.
Proof. intros. apply (d_nonneg _ jeffrey_div); now apply share_pos. Qed.
Lemma share_eq a ta e te : 0 < ta -> 0 < te -> (IZR a / IZR ta = IZR e / IZR te)%R <-> a * te = e * ta.
Proof.
  intros Ha He. apply IZR_lt in Ha, He. split.
  - intros E. apply eq_IZR. rewrite !mult_IZR.
    apply Rmult_eq_reg_r with (/ IZR ta * / IZR te)%R; [|apply Rmult_integral_contrapositive; split; apply Rinv_neq_0_compat; lra].
    transitivity (IZR a / IZR ta)%R; [field; lra|]. rewrite E. field; lra.
  - intros E. apply (f_equal IZR) in E. rewrite !mult_IZR in E.
    apply Rmult_eq_reg_r with (IZR ta * IZR te)%R; [|apply Rmult_integral_contrapositive; lra].
    transitivity (IZR a * IZR te)%R; [field; lra|]. rewrite E. field; lra.
Qed.
Lemma jeffrey1_sym x y : (0 < x)%R -> (0 < y)%R -> jeffrey1 x y = jeffrey1 y x.
Proof. intros. rewrite !jeffrey1_eq. rewrite (ln_inv_div x y) by assumption. ring. Qed.

(** nan / inf classification *)
Lemma xsum_nan l : xsum l = XNan <-> In XNan l.
Proof.
  induction l as [|a l IH]; cbn [xsum In]; [split; [discriminate|tauto]|].
  destruct a; cbn [xadd]; destruct (xsum l) eqn:E; try (split; intros; [discriminate|exfalso]; destruct H; [discriminate|apply IH in H; discriminate]).
  - split; intros; [right; now apply IH|reflexivity].
  - split; intros; [right; now apply IH|reflexivity].
  - split; intros; auto.
  - split; intros; auto.
  - split; intros; auto.
Qed.
Lemma xsum_inf l : xsum l = XInf <-> In XInf l /\ ~ In XNan l.
Proof.
  induction l as [|a l IH]; cbn [xsum In]; [split; [discriminate|tauto]|].
  destruct (xsum_nan l) as [N1 N2]. destruct a; cbn [xadd]; destruct (xsum l) eqn:E.
  - split; [discriminate|]. intros [[K|K] L]; [discriminate|]. exfalso. assert (XFin r0 = XInf) by (apply IH; split; [exact K|tauto]). discriminate.
  - destruct (proj1 IH eq_refl). split; [|reflexivity]. intros _. split; [tauto|]. intros [K|K]; [discriminate|tauto].
  - split; [discriminate|]. intros [_ L]. exfalso. apply L. right. now apply N1.
  - split; [|reflexivity]. intros _. split; [now left|]. intros [K|K]; [discriminate|]. specialize (N2 K). discriminate.
  - split; [|reflexivity]. intros _. split; [now left|]. intros [K|K]; [discriminate|]. specialize (N2 K). discriminate.
  - split; [discriminate|]. intros [_ L]. exfalso. apply L. right. now apply N1.
  - split; [discriminate|]. intros [_ L]. exfalso. apply L. now left.
  - split; [discriminate|]. intros [_ L]. exfalso. apply L. now left.
  - split; [discriminate|]. intros [_ L]. exfalso. apply L. now left.
Qed.
Lemma psi_row_nan ta te r : ta <> 0 -> te <> 0 -> psi_row ta te r = XNan <-> fst r = 0 /\ snd r = 0.
Proof.
  destruct r as [a e]. cbn [fst snd]. intros A E. unfold psi_row.
  destruct (Z.eqb_spec ta 0), (Z.eqb_spec te 0), (Z.eqb_spec e 0), (Z.eqb_spec a 0); cbn [orb]; try lia; split; intros; try discriminate; try reflexivity; lia.
Qed.
Lemma psi_row_inf ta te r : ta <> 0 -> te <> 0 ->
  psi_row ta te r = XInf <-> (fst r = 0 /\ snd r <> 0) \/ (fst r <> 0 /\ snd r = 0).
Proof.
  destruct r as [a e]. cbn [fst snd]. intros A E. unfold psi_row.
  destruct (Z.eqb_spec ta 0), (Z.eqb_spec te 0), (Z.eqb_spec e 0), (Z.eqb_spec a 0); cbn [orb]; try lia; split; intros; try discriminate; try reflexivity; lia.
Qed.
Lemma xsum_skipna_filter l : xsum_skipna l = xsum (filter (fun a => match a with XNan => false | _ => true end) l).
Proof. induction l as [|[r| |] l IH]; cbn [xsum_skipna filter xsum]; try reflexivity; try exact IH; now rewrite IH. Qed.

(** ** Counts *)
Lemma digitize_r_le splits x : (digitize_r splits x <= length splits)%nat.
Proof. induction splits as [|s l IH]; cbn [digitize_r length]; [lia|]. destruct (s <? x); lia. Qed.
Lemma count_split {A} (f : A -> nat) l n : (forall a, In a l -> (f a < n)%nat) ->
  zsum (map (fun i => count_if (fun a => Nat.eqb (f a) i) l) (seq 0 n)) = Z.of_nat (length l).
Proof.
  unfold count_if. induction l as [|a l IH]; intros H.
  - cbn [filter length]. induction (seq 0 n); cbn [map zsum]; lia.
  - specialize (IH ltac:(intros; apply H; now right)). specialize (H a (or_introl eq_refl)). cbn [length].
    rewrite Nat2Z.inj_succ, <- IH. clear IH.
    assert (E : forall s m, (s <= f a < s + m)%nat ->
      zsum (map (fun i => Z.of_nat (length (filter (fun x => Nat.eqb (f x) i) (a :: l)))) (seq s m)) =
      Z.succ (zsum (map (fun i => Z.of_nat (length (filter (fun x => Nat.eqb (f x) i) l))) (seq s m)))).
    { intros s m. revert s. induction m as [|m IHm]; intros s Hr; [lia|]. cbn [seq map zsum filter].
      destruct (Nat.eqb_spec (f a) s) as [Es|Hn].
      - assert (Z0 : forall m', zsum (map (fun i => Z.of_nat (length (if Nat.eqb (f a) i then a :: filter (fun x => Nat.eqb (f x) i) l else filter (fun x => Nat.eqb (f x) i) l))) (seq (S s) m'))
           = zsum (map (fun i => Z.of_nat (length (filter (fun x => Nat.eqb (f x) i) l))) (seq (S s) m'))).
        { intros m'. f_equal. apply map_ext_in. intros i Hi. apply in_seq in Hi. destruct (Nat.eqb_spec (f a) i); [lia|reflexivity]. }
        rewrite Z0. cbn [length]. lia.
      - specialize (IHm (S s) ltac:(lia)). cbn [filter] in IHm. rewrite IHm. lia. }
    apply (E 0%nat n). lia.
Qed.
Lemma count_if_pair {A} (p q : A -> bool) l : count_if (fun a => p a && q a) l + count_if (fun a => negb (p a) && q a) l = count_if q l.
Proof.
  unfold count_if. induction l as [|a l IH]; [reflexivity|]. cbn [filter].
  destruct (p a), (q a); cbn [negb andb length]; lia.
Qed.
Lemma sys_records_count splits d : sys_records splits d = map (fun i => count_if (fun s => Nat.eqb (digitize_r splits (snd s)) i) d) (seq 0 (S (length splits))).
Proof. unfold sys_records. apply map_ext. intros i. unfold sys_nonevent, sys_event. apply count_if_pair. Qed.
Lemma digitize_r_in_bin splits x i : increasing splits -> digitize_r splits x = i <-> in_right_bin_i splits i x.
Proof.
  intros Hs. revert i. unfold in_right_bin_i, edges.
  assert (G : forall l prev i, StronglySorted Z.lt l -> (forall p, prev = Some p -> p < x) -> (forall p s, prev = Some p -> In s l -> p < s) ->
    digitize_r l x = i <-> match nth_error (prev :: map Some l ++ [None]) i, nth_error (prev :: map Some l ++ [None]) (S i) with
      | Some lo, Some hi => in_right_bin lo hi x | _, _ => False end).
  { induction l as [|s l IH]; intros prev i Hl Hp Hlt.
    - cbn [digitize_r map app]. destruct i as [|i]; cbn [nth_error].
      + split; [|reflexivity]. intros _. split; [|exact I]. destruct prev as [p|]; [now apply Hp|exact I].
      + split; [discriminate|]. destruct i; cbn [nth_error]; [intros []|]. destruct i; intros [].
    - inversion Hl as [|? ? Hl' Hf]; subst. rewrite Forall_forall in Hf. cbn [digitize_r map app].
      destruct (Z.ltb_spec s x) as [L|L].
      + destruct i as [|i].
        * cbn [nth_error]. split; [discriminate|]. intros [_ K]. cbn in K. lia.
        * specialize (IH (Some s) i Hl'). cbn [nth_error] in *. rewrite <- IH.
          -- split; [intros E; now injection E|congruence].
          -- intros p E. injection E as <-. exact L.
          -- intros p s' E Hin. injection E as <-. now apply Hf.
      + destruct i as [|i].
        * cbn [nth_error]. split; [|reflexivity]. intros _. split; [destruct prev; [now apply Hp|exact I]|exact L].
        * split; [discriminate|]. cbn [nth_error]. intros K. exfalso.
          assert (Hge : forall z, In z (s :: l) -> x <= z) by (intros z [<-|Hz]; [exact L|specialize (Hf z Hz); lia]).
          change (Some s :: map Some l ++ [None]) with (map Some (s :: l) ++ [None]) in K.
          destruct (nth_error (map Some (s :: l) ++ [None]) i) as [[z|]|] eqn:E1; [| |tauto].
          -- assert (In z (s :: l)).
             { apply nth_error_In in E1. apply in_app_or in E1. destruct E1 as [E1|[E1|[]]]; [|discriminate]. apply in_map_iff in E1. destruct E1 as (w & E & Hw). now injection E as <-. }
             specialize (Hge z H). destruct (nth_error (map Some l ++ [None]) i); [|tauto]. destruct K as [K _]. cbn in K. lia.
          -- assert (Hlen : (i = length (s :: l))%nat).
             { destruct (Nat.lt_ge_cases i (length (map Some (s :: l)))) as [Hi|Hi].
               - rewrite nth_error_app1 in E1 by exact Hi. rewrite nth_error_map in E1. destruct (nth_error (s :: l) i); discriminate.
               - rewrite nth_error_app2 in E1 by exact Hi. rewrite map_length in *. destruct (i - length (s :: l))%nat as [|m] eqn:Em; [lia|].
                 cbn [nth_error] in E1. destruct m; discriminate. }
             assert (E2 : nth_error (map Some l ++ [None]) i = None).
             { apply nth_error_None. rewrite app_length, map_length. cbn [length] in *. lia. }
             rewrite E2 in K. exact K. }
  intros i. apply G; [exact Hs| |]; discriminate.
Qed.
