(** Rank invariant of the quantile sketch (values added one at a time). *)
From Coq Require Import List ZArith Bool QArith Qround Lia Permutation Sorted.
From Verif Require Import Model.Arr Model.GK Spec.GKSpec Proofs.ArrP Proofs.GKP.
Import ListNotations.
Open Scope Z_scope.

Lemma upto_app v a b : upto v (a ++ b) = upto v a + upto v b.
Proof. unfold upto. rewrite filter_app, app_length. lia. Qed.
Lemma below_app v a b : below v (a ++ b) = below v a + below v b.
Proof. unfold below. rewrite filter_app, app_length. lia. Qed.
Lemma upto_nonneg v a : 0 <= upto v a. Proof. unfold upto; lia. Qed.
Lemma below_nonneg v a : 0 <= below v a. Proof. unfold below; lia. Qed.
Lemma filter_len {A} f (l : list A) : (length (filter f l) <= length l)%nat.
Proof. induction l as [|x r IH]; cbn [filter length]; [lia|]. destruct (f x); cbn [length]; lia. Qed.
Lemma upto_le v a : upto v a <= Z.of_nat (length a).
Proof. unfold upto. pose proof (filter_len (fun x => Z.leb x v) a). lia. Qed.
Lemma below_le v a : below v a <= Z.of_nat (length a).
Proof. unfold below. pose proof (filter_len (fun x => Z.ltb x v) a). lia. Qed.
Lemma upto_all v a : Forall (fun x => x <= v) a -> upto v a = Z.of_nat (length a).
Proof.
  unfold upto. induction 1 as [|x r H _ IH]; [reflexivity|]. cbn [filter].
  apply Z.leb_le in H. rewrite H. cbn [length]. lia.
Qed.
Lemma below_none v a : Forall (fun x => v <= x) a -> below v a = 0.
Proof.
  unfold below. induction 1 as [|x r H _ IH]; [reflexivity|]. cbn [filter].
  apply Z.ltb_ge in H. rewrite H. exact IH.
Qed.
Lemma upto_mono v w a : v <= w -> upto v a <= upto w a.
Proof.
  unfold upto. intros L. induction a as [|x r IH]; [reflexivity|]. cbn [filter].
  destruct (Z.leb_spec x v), (Z.leb_spec x w); cbn [length]; lia.
Qed.
Lemma below_mono v w a : v <= w -> below v a <= below w a.
Proof.
  unfold below. intros L. induction a as [|x r IH]; [reflexivity|]. cbn [filter].
  destruct (Z.ltb_spec x v), (Z.ltb_spec x w); cbn [length]; lia.
Qed.
Lemma below_lt_upto v a : In v a -> below v a + 1 <= upto v a.
Proof.
  unfold below, upto. induction a as [|x r IH]; intros [].
  - subst x. cbn [filter]. rewrite Z.ltb_irrefl, Z.leb_refl. cbn [length].
    assert (length (filter (fun x => Z.ltb x v) r) <= length (filter (fun x => Z.leb x v) r))%nat.
    { clear. induction r as [|x r IH]; [reflexivity|]. cbn [filter].
      destruct (Z.ltb_spec x v), (Z.leb_spec x v); cbn [length]; lia. }
    lia.
  - cbn [filter]. specialize (IH H). destruct (Z.ltb_spec x v), (Z.leb_spec x v); cbn [length]; lia.
Qed.
Lemma upto_perm v a b : Permutation a b -> upto v a = upto v b.
Proof.
  unfold upto. induction 1 as [|x a b _ IH|x y a|]; cbn [filter];
    repeat (destruct (_ <=? v)); cbn [length]; lia.
Qed.
Lemma below_perm v a b : Permutation a b -> below v a = below v b.
Proof.
  unfold below. induction 1 as [|x a b _ IH|x y a|]; cbn [filter];
    repeat (destruct (_ <? v)); cbn [length]; lia.
Qed.
Lemma has_rank_perm v a b r : Permutation a b -> has_rank v a r -> has_rank v b r.
Proof. intros P. unfold has_rank. rewrite (upto_perm v a b P), (below_perm v a b P). tauto. Qed.

Fixpoint pranked (P : Z -> Z -> Z -> Prop) (A : Z) (l : list entry) : Prop :=
  match l with
  | [] => True
  | e :: r => P (ev e) (A + eg e) (A + eg e + ed e) /\ pranked P (A + eg e) r
  end.

Lemma pranked_impl (P Q : Z -> Z -> Z -> Prop) k : (forall v lo hi, P v lo hi -> Q v (lo + k) (hi + k)) ->
  forall l A, pranked P A l -> pranked Q (A + k) l.
Proof.
  intros H. induction l as [|e r IH]; intros A; cbn [pranked]; [trivial|]. intros [a b]. split.
  - replace (A + k + eg e) with (A + eg e + k) by lia.
    replace (A + eg e + k + ed e) with (A + eg e + ed e + k) by lia. now apply H.
  - replace (A + k + eg e) with (A + eg e + k) by lia. now apply IH.
Qed.

(** compressing a single list keeps the rank bounds of the kept entries *)
Lemma squash_ents thr P : forall fuel l A, pranked P A l -> pranked P A (mc_loop fuel thr [] l).
Proof.
  induction fuel as [|f IH]; intros l A H; [exact I|]. cbn [mc_loop].
  destruct l as [|t r]; [exact I|]. destruct r as [|tn r'].
  - cbn [pranked] in *. split; [tauto|]. now apply IH.
  - destruct (under thr t tn).
    + apply IH. cbn [pranked bump ev eg ed] in *. destruct H as (_ & H1 & H2).
      replace (A + (eg tn + eg t)) with (A + eg t + eg tn) by lia. tauto.
    + cbn [pranked] in H |- *. split; [tauto|]. apply IH. cbn [pranked]. tauto.
Qed.
Lemma squash_inc thr P : forall fuel l A, pranked P A l -> pranked P A (mc_loop fuel thr l []).
Proof.
  induction fuel as [|f IH]; intros l A H; [exact I|]. cbn [mc_loop].
  destruct l as [|t r]; [exact I|]. destruct r as [|tn r'].
  - cbn [pranked] in *. split; [tauto|]. now apply IH.
  - destruct (under thr t tn).
    + apply IH. cbn [pranked bump ev eg ed] in *. destruct H as (_ & H1 & H2).
      replace (A + (eg tn + eg t)) with (A + eg t + eg tn) by lia. tauto.
    + cbn [pranked] in H |- *. split; [tauto|]. apply IH. cbn [pranked]. tauto.
Qed.

(** the rank bounds [lo, hi] of an entry with value v meet the ranks of v; hi is a rank *)
Definition bounds (S : list Z) (v lo hi : Z) : Prop :=
  lo <= upto v S /\ below v S + 1 <= hi /\ hi <= Z.of_nat (length S).
Definition pend (S : list Z) (c v lo hi : Z) : Prop :=
  lo <= upto v S + c /\ below v S + 1 + c <= hi /\ hi <= Z.of_nat (length S) + c.

Lemma inc_bounds S : forall inc pr, sorted_e inc -> ones inc ->
  Forall (fun x => Forall (fun i => x <= ev i) inc) S ->
  Forall (fun x => Forall (fun i => x <= ev i) inc) pr ->
  pranked (bounds (S ++ pr ++ map ev inc)) (Z.of_nat (length S) + Z.of_nat (length pr)) inc.
Proof.
  induction inc as [|t r IH]; intros pr So On HS HP; [exact I|].
  pose proof (sorted_hd _ _ So) as Hd. pose proof (sorted_tl _ _ So) as Tl.
  inversion On as [|? ? [G D] On']; subst. cbn [pranked]. rewrite G, D. split.
  - assert (Forall (fun x => x <= ev t) S) by (eapply Forall_impl; [|exact HS]; intros a Ha; now inversion Ha).
    assert (Forall (fun x => x <= ev t) pr) by (eapply Forall_impl; [|exact HP]; intros a Ha; now inversion Ha).
    unfold bounds. rewrite !upto_app, !below_app, !app_length, !map_length. repeat split.
    + rewrite (upto_all _ S), (upto_all _ pr) by assumption. cbn [map].
      change (ev t :: map ev r) with ([ev t] ++ map ev r). rewrite upto_app.
      rewrite (upto_all _ [ev t]) by (repeat constructor; lia). cbn [length].
      pose proof (upto_nonneg (ev t) (map ev r)). lia.
    + pose proof (below_le (ev t) S). pose proof (below_le (ev t) pr).
      rewrite (below_none (ev t) (map ev (t :: r))); [lia|].
      cbn [map]. constructor; [lia|]. apply Forall_map. exact Hd.
    + cbn [length]. lia.
  - specialize (IH (pr ++ [ev t]) Tl On').
    rewrite app_length in IH. cbn [length] in IH.
    replace (S ++ (pr ++ [ev t]) ++ map ev r) with (S ++ pr ++ map ev (t :: r)) in IH
      by (cbn [map]; rewrite <- app_assoc; reflexivity).
    replace (Z.of_nat (length S) + Z.of_nat (length pr) + 1) with
      (Z.of_nat (length S) + Z.of_nat (length pr + 1)) by lia.
    apply IH.
    + eapply Forall_impl; [|exact HS]; intros a Ha; now inversion Ha.
    + apply Forall_app. split; [eapply Forall_impl; [|exact HP]; intros a Ha; now inversion Ha|].
      constructor; [exact Hd|constructor].
Qed.

Lemma pend_bump S c k t tn A : pend S c (ev tn) (A + eg t + eg tn) (A + eg t + eg tn + ed tn) -> eg t = k ->
  pend S c (ev (bump k tn)) (A + eg (bump k tn)) (A + eg (bump k tn) + ed (bump k tn)).
Proof.
  intros H <-. cbn [bump ev eg ed]. replace (A + (eg tn + eg t)) with (A + eg t + eg tn) by lia. exact H.
Qed.

Lemma mc_ranked thr S : forall fuel inc ents A pr,
  (length inc + length ents < fuel)%nat ->
  sorted_e inc -> sorted_e ents -> ones inc -> gpos ents ->
  Forall (fun x => Forall (fun i => x <= ev i) inc) pr ->
  Forall (fun x => Forall (fun i => x <= ev i) ents) pr ->
  pranked (pend S (Z.of_nat (length pr))) A ents ->
  Forall (fun i => A <= Z.of_nat (length pr) + upto (ev i) S) inc ->
  A + gs ents = Z.of_nat (length S) + Z.of_nat (length pr) ->
  (forall i, In i inc -> Forall (fun e => ev e <= ev i) ents -> Forall (fun s => s <= ev i) S) ->
  pranked (bounds (S ++ pr ++ map ev inc)) A (mc_loop fuel thr inc ents).
Proof.
  induction fuel as [|f IH]; intros inc ents A pr L Si Se On Gp Pi Pe Rk H1 Tot Mx; [exact I|].
  destruct inc as [|ti ri].
  { apply squash_ents. cbn [map]. rewrite app_nil_r.
    clear - Rk Pe. assert (K : forall e, In e ents -> forall x, In x pr -> x <= ev e).
    { intros e I1 x I2. rewrite Forall_forall in Pe. specialize (Pe x I2). rewrite Forall_forall in Pe. auto. }
    clear Pe. revert A Rk. induction ents as [|e r IH]; intros A; cbn [pranked]; [trivial|]. intros [R1 R2]. split.
    - unfold pend, bounds in *. rewrite upto_app, below_app, app_length.
      rewrite (upto_all _ pr) by (apply Forall_forall; intros x Ix; apply K; [left; reflexivity|assumption]).
      pose proof (below_le (ev e) pr). lia.
    - apply IH; [|assumption]. intros e' I1. apply K. now right. }
  destruct ents as [|tj rj].
  { apply squash_inc. cbn [gs map zsum] in Tot. replace A with (Z.of_nat (length S) + Z.of_nat (length pr)) by
      (unfold gs in Tot; cbn [map zsum] in Tot; lia).
    apply inc_bounds; [assumption|assumption| |assumption].
    apply Forall_forall. intros x Ix. apply Forall_forall. intros i Ii.
    specialize (Mx i Ii (Forall_nil _)). rewrite Forall_forall in Mx. auto. }
  pose proof (sorted_hd _ _ Si) as Hdi. pose proof (sorted_tl _ _ Si) as Tli.
  pose proof (sorted_hd _ _ Se) as Hdj. pose proof (sorted_tl _ _ Se) as Tlj.
  inversion On as [|? ? [G D] On']; subst. inversion H1 as [|? ? Hti H1']; subst.
  inversion Gp as [|? ? Gtj Gp']; subst.
  cbn [pranked] in Rk. destruct Rk as [Rj Rk].
  assert (Ptj : Forall (fun x => x <= ev tj) pr) by (eapply Forall_impl; [|exact Pe]; intros a Ha; now inversion Ha).
  assert (Pti : Forall (fun x => x <= ev ti) pr) by (eapply Forall_impl; [|exact Pi]; intros a Ha; now inversion Ha).
  cbn [mc_loop]. destruct (Z.ltb_spec (ev ti) (ev tj)) as [Lt|Ge].
  - assert (EqL : S ++ pr ++ map ev (ti :: ri) = S ++ (pr ++ [ev ti]) ++ map ev ri)
      by (cbn [map]; rewrite <- app_assoc; reflexivity).
    assert (Len : Z.of_nat (length (pr ++ [ev ti])) = Z.of_nat (length pr) + 1) by (rewrite app_length; cbn [length]; lia).
    assert (Pi' : Forall (fun x => Forall (fun i => x <= ev i) ri) (pr ++ [ev ti])).
    { apply Forall_app. split; [eapply Forall_impl; [|exact Pi]; intros a Ha; now inversion Ha|].
      constructor; [exact Hdi|constructor]. }
    assert (Pe' : Forall (fun x => Forall (fun i => x <= ev i) (tj :: rj)) (pr ++ [ev ti])).
    { apply Forall_app. split; [exact Pe|]. constructor; [|constructor]. constructor; [lia|].
      eapply Forall_impl; [|exact Hdj]. cbn; intros; lia. }
    assert (Mx' : forall i, In i ri -> Forall (fun e => ev e <= ev i) (tj :: rj) -> Forall (fun s => s <= ev i) S)
      by (intros i Ii; apply Mx; now right).
    assert (Rk' : pranked (pend S (Z.of_nat (length pr) + 1)) (A + eg tj + 1) rj).
    { eapply pranked_impl; [|exact Rk]. unfold pend. intros. lia. }
    destruct (under thr ti tj).
    + rewrite EqL. apply IH; try assumption.
      * cbn [length] in *; lia.
      * now apply sorted_bump.
      * constructor; [cbn [bump eg]; lia|assumption].
      * eapply Forall_impl; [|exact Pe']. cbn. intros a Ha. inversion Ha; subst. constructor; assumption.
      * rewrite Len. cbn [pranked bump ev eg ed]. rewrite G.
        replace (A + (eg tj + 1)) with (A + eg tj + 1) by lia. split; [|exact Rk'].
        unfold pend in Rj |- *. lia.
      * rewrite Len. eapply Forall_impl; [|exact H1']. cbn. intros. lia.
      * rewrite gs_bump, gs_cons, G. rewrite gs_cons in Tot. lia.
      * intros i Ii F. apply Mx'; [assumption|]. inversion F; subst. constructor; assumption.
    + cbn [pranked ev eg ed]. split.
      * unfold bounds, pend in Rj |- *. rewrite !upto_app, !below_app, !app_length.
        rewrite (upto_all _ pr) by assumption.
        pose proof (below_le (ev ti) pr). pose proof (below_mono (ev ti) (ev tj) S ltac:(lia)).
        rewrite (below_none (ev ti) (map ev (ti :: ri))) by
          (cbn [map]; constructor; [lia|]; apply Forall_map; exact Hdi).
        cbn [map]. change (ev ti :: map ev ri) with ([ev ti] ++ map ev ri). rewrite upto_app, app_length.
        rewrite (upto_all _ [ev ti]) by (repeat constructor; lia). cbn [length].
        pose proof (upto_nonneg (ev ti) (map ev ri)). lia.
      * rewrite EqL. apply IH; try assumption.
        -- cbn [length] in *; lia.
        -- rewrite Len. cbn [pranked]. rewrite G.
           replace (A + 1 + eg tj) with (A + eg tj + 1) by lia. split; [|exact Rk'].
           unfold pend in Rj |- *. lia.
        -- rewrite Len. eapply Forall_impl; [|exact H1']. cbn. intros. lia.
        -- rewrite G, Len. lia.
  - assert (Inc_ge : Forall (fun i => ev tj <= ev i) (ti :: ri)).
    { constructor; [lia|]. eapply Forall_impl; [|exact Hdi]. cbn; intros; lia. }
    assert (Pe' : Forall (fun x => Forall (fun i => x <= ev i) rj) pr)
      by (eapply Forall_impl; [|exact Pe]; intros a Ha; now inversion Ha).
    assert (Bj : bounds (S ++ pr ++ map ev (ti :: ri)) (ev tj) (A + eg tj) (A + eg tj + ed tj)).
    { unfold bounds, pend in Rj |- *. rewrite !upto_app, !below_app, !app_length, !map_length.
      rewrite (upto_all _ pr) by assumption.
      rewrite (below_none (ev tj) (map ev (ti :: ri))) by (apply Forall_map; exact Inc_ge).
      pose proof (below_le (ev tj) pr). pose proof (upto_nonneg (ev tj) (map ev (ti :: ri))). lia. }
    assert (H1'' : Forall (fun i => A + eg tj <= Z.of_nat (length pr) + upto (ev i) S) (ti :: ri)).
    { eapply Forall_impl; [|exact Inc_ge]. cbn. intros i Li. pose proof (upto_mono (ev tj) (ev i) S Li).
      unfold pend in Rj. lia. }
    assert (Mxj : forall i, In i (ti :: ri) -> Forall (fun e => ev e <= ev i) rj -> Forall (fun s => s <= ev i) S).
    { intros i Ii F. apply Mx; [assumption|]. constructor; [|assumption].
      rewrite Forall_forall in Inc_ge. now apply Inc_ge. }
    destruct rj as [|tn r'].
    + cbn [pranked]. split; [exact Bj|]. apply IH; try assumption.
      * cbn [length] in *; lia.
      * rewrite gs_cons in Tot. unfold gs in *; cbn [map zsum] in *; lia.
    + destruct (under thr tj tn).
      * apply IH; try assumption.
        -- cbn [length] in *; lia.
        -- now apply sorted_bump.
        -- inversion Gp'; subst. constructor; [cbn [bump eg]; lia|assumption].
        -- eapply Forall_impl; [|exact Pe']. cbn. intros a Ha. inversion Ha; subst. constructor; assumption.
        -- cbn [pranked] in Rk |- *. destruct Rk as [Rn Rr]. split; [eapply pend_bump; [exact Rn|reflexivity]|].
           cbn [bump eg]. replace (A + (eg tn + eg tj)) with (A + eg tj + eg tn) by lia. exact Rr.
        -- rewrite gs_bump. rewrite gs_cons in Tot. lia.
        -- intros i Ii F. apply Mxj; [assumption|]. inversion F; subst. constructor; assumption.
      * cbn [pranked]. split; [exact Bj|]. apply IH; try assumption.
        -- cbn [length] in *; lia.
        -- rewrite gs_cons in Tot. lia.
Qed.

(** the largest input value is kept as the last entry *)
Lemma mc_last thr m : forall fuel inc ents, (length inc + length ents < fuel)%nat ->
  sorted_e inc -> sorted_e ents ->
  (exists e, In e (inc ++ ents) /\ m <= ev e) -> exists e, In e (mc_loop fuel thr inc ents) /\ m <= ev e.
Proof.
  induction fuel as [|f IH]; intros inc ents L Si Se (e & I & Le); [lia|]. cbn [mc_loop].
  destruct inc as [|ti ri], ents as [|tj rj].
  - destruct I.
  - pose proof (sorted_hd _ _ Se) as Hd. pose proof (sorted_tl _ _ Se) as Tl. cbn [app] in I. destruct rj as [|tn r'].
    + destruct I as [<-|[]]. exists tj. split; [now left|assumption].
    + destruct (under thr tj tn).
      * apply IH; [cbn [length] in *; lia|constructor|now apply sorted_bump|].
        destruct I as [<-|[<-|I]].
        -- exists (bump (eg tj) tn). split; [now left|]. inversion Hd; subst. cbn [bump ev]. lia.
        -- exists (bump (eg tj) tn). split; [now left|]. exact Le.
        -- exists e. split; [now right|assumption].
      * destruct I as [<-|I]; [exists tj; split; [now left|assumption]|].
        destruct (IH [] (tn :: r')) as (e' & I' & L'); [cbn [length] in *; lia|constructor|assumption|exists e; now split|].
        exists e'. split; [now right|assumption].
  - pose proof (sorted_hd _ _ Si) as Hd. pose proof (sorted_tl _ _ Si) as Tl. rewrite app_nil_r in I. destruct ri as [|tn r'].
    + destruct I as [<-|[]]. exists ti. split; [now left|assumption].
    + destruct (under thr ti tn).
      * apply IH; [cbn [length] in *; lia|now apply sorted_bump|constructor|].
        destruct I as [<-|[<-|I]].
        -- exists (bump (eg ti) tn). split; [now left|]. inversion Hd; subst. cbn [bump ev]. lia.
        -- exists (bump (eg ti) tn). split; [now left|]. exact Le.
        -- exists e. split; [rewrite app_nil_r; now right|assumption].
      * destruct I as [<-|I]; [exists ti; split; [now left|assumption]|].
        destruct (IH (tn :: r') []) as (e' & I' & L'); [cbn [length] in *; lia|assumption|constructor|exists e; split; [now rewrite app_nil_r|assumption]|].
        exists e'. split; [now right|assumption].
  - pose proof (sorted_hd _ _ Si) as Hd. pose proof (sorted_tl _ _ Si) as Tl.
    pose proof (sorted_hd _ _ Se) as Hde. pose proof (sorted_tl _ _ Se) as Tle.
    destruct (Z.ltb_spec (ev ti) (ev tj)) as [Lt|Ge].
    + destruct (under thr ti tj).
      * apply IH; [cbn [length] in *; lia|assumption|now apply sorted_bump|].
        apply in_app_or in I. destruct I as [[<-|I]|[<-|I]].
        -- exists (bump (eg ti) tj). split; [apply in_or_app; right; now left|cbn [bump ev]; lia].
        -- exists e. split; [apply in_or_app; now left|assumption].
        -- exists (bump (eg ti) tj). split; [apply in_or_app; right; now left|exact Le].
        -- exists e. split; [apply in_or_app; right; now right|assumption].
      * apply in_app_or in I. destruct I as [[<-|I]|I].
        -- eexists. split; [now left|assumption].
        -- destruct (IH ri (tj :: rj)) as (e' & I' & L'); [cbn [length] in *; lia|assumption|assumption|exists e; split; [apply in_or_app; now left|assumption]|].
           exists e'. split; [now right|assumption].
        -- destruct (IH ri (tj :: rj)) as (e' & I' & L'); [cbn [length] in *; lia|assumption|assumption|exists e; split; [apply in_or_app; now right|assumption]|].
           exists e'. split; [now right|assumption].
    + destruct rj as [|tn r'].
      * apply in_app_or in I. destruct I as [I|[<-|[]]].
        -- destruct (IH (ti :: ri) []) as (e' & I' & L'); [cbn [length] in *; lia|assumption|assumption|exists e; split; [apply in_or_app; now left|assumption]|].
           exists e'. split; [now right|assumption].
        -- exists tj. split; [now left|assumption].
      * destruct (under thr tj tn).
        -- apply IH; [cbn [length] in *; lia|assumption|now apply sorted_bump|].
           apply in_app_or in I. destruct I as [I|[<-|[<-|I]]].
           ++ exists e. split; [apply in_or_app; now left|assumption].
           ++ exists (bump (eg tj) tn). split; [apply in_or_app; right; now left|].
              inversion Hde; subst. cbn [bump ev]. lia.
           ++ exists (bump (eg tj) tn). split; [apply in_or_app; right; now left|exact Le].
           ++ exists e. split; [apply in_or_app; right; now right|assumption].
        -- apply in_app_or in I. destruct I as [I|[<-|I]].
           ++ destruct (IH (ti :: ri) (tn :: r')) as (e' & I' & L'); [cbn [length] in *; lia|assumption|assumption|exists e; split; [apply in_or_app; now left|assumption]|].
              exists e'. split; [now right|assumption].
           ++ exists tj. split; [now left|assumption].
           ++ destruct (IH (ti :: ri) (tn :: r')) as (e' & I' & L'); [cbn [length] in *; lia|assumption|assumption|exists e; split; [apply in_or_app; now right|assumption]|].
              exists e'. split; [now right|assumption].
Qed.
