(** Invariants over histories, rank guarantee. *)
From Coq Require Import List ZArith Bool QArith Qround Lia Permutation Sorted.
From Verif Require Import Model.Arr Model.GK Spec.GKSpec Proofs.ArrP Proofs.GKP Proofs.GKR.
Import ListNotations.
Open Scope Z_scope.

Definition rthr (e : Q) (n : Z) : Z := Qfloor (remove_threshold e n).

Lemma rthr_mono e n m : (0 < e)%Q -> n <= m -> rthr e n <= rthr e m.
Proof.
  intros He L. apply Qfloor_resp_le. unfold remove_threshold.
  apply Qmult_le_l; [|rewrite <- Zle_Qle; lia].
  setoid_replace 0%Q with (2 * 0)%Q by reflexivity. now apply Qmult_lt_l.
Qed.

Lemma spread_nonneg e n : (0 < e)%Q -> 1 <= n -> 0 <= to_int (e * inject_Z (n - 1)).
Proof.
  intros He L. unfold to_int. change 0 with (Qfloor 0). apply Qfloor_resp_le.
  apply Qmult_le_0_compat; [now apply Qlt_le_weak|]. change 0%Q with (inject_Z 0). rewrite <- Zle_Qle. lia.
Qed.

Lemma floor_double x : Qfloor (2 * x) <= 2 * Qfloor x + 1.
Proof.
  pose proof (Qlt_floor x) as H. pose proof (Qfloor_le (2 * x)) as K.
  assert (inject_Z (Qfloor (2 * x)) < inject_Z (2 * Qfloor x + 2))%Q.
  { eapply Qle_lt_trans; [exact K|].
    setoid_replace (inject_Z (2 * Qfloor x + 2)) with (2 * inject_Z (Qfloor x + 1))%Q
      by (rewrite <- (inject_Z_mult 2); f_equiv; lia).
    apply Qmult_lt_l; [reflexivity|exact H]. }
  rewrite <- Zlt_Qlt in H0. lia.
Qed.

Lemma cap_spread e n : (0 < e)%Q -> 1 <= n ->
  cap (remove_threshold e n) <= 2 * to_int (e * inject_Z (n - 1)) + 1.
Proof.
  intros He L. pose proof (spread_nonneg e n He L) as S0. unfold cap.
  assert (Qfloor (remove_threshold e n) <= 2 * to_int (e * inject_Z (n - 1)) + 1); [|lia].
  unfold to_int. rewrite <- floor_double.
  apply Qfloor_resp_le. unfold remove_threshold. rewrite Qmult_assoc. apply Qle_refl.
Qed.

Lemma small_rthr e n : (e * inject_Z (n - 1) < 1)%Q -> rthr e n <= 1.
Proof.
  intros H. unfold rthr. assert (Qfloor (remove_threshold e n) < 2); [|lia].
  rewrite Zlt_Qlt. eapply Qle_lt_trans; [apply Qfloor_le|].
  unfold remove_threshold. rewrite <- Qmult_assoc.
  setoid_replace (inject_Z 2) with (2 * 1)%Q by reflexivity. now apply Qmult_lt_l.
Qed.

(** with a small threshold nothing is merged *)
Lemma mc_perm thr : Qfloor thr <= 1 -> forall fuel inc ents, (length inc + length ents < fuel)%nat ->
  ones inc -> ones ents ->
  Permutation (map ev (mc_loop fuel thr inc ents)) (map ev inc ++ map ev ents) /\ ones (mc_loop fuel thr inc ents).
Proof.
  intros T. assert (U : forall a b, eg a = 1 -> eg b = 1 -> ed b = 0 -> under thr a b = false).
  { intros a b A B C. destruct (under thr a b) eqn:E; [|reflexivity]. apply under_cap in E. lia. }
  induction fuel as [|f IH]; intros inc ents L Oi Oe; [lia|]. cbn [mc_loop].
  destruct inc as [|ti ri], ents as [|tj rj].
  - split; constructor.
  - inversion Oe as [|? ? [G D] Oe']; subst. destruct rj as [|tn r'].
    + destruct (IH [] []) as [P O]; [cbn [length] in *; lia|constructor|constructor|].
      split; [cbn [map]; now constructor|constructor; [split; assumption|assumption]].
    + inversion Oe' as [|? ? [G' D'] ?]; subst. rewrite U by assumption.
      destruct (IH [] (tn :: r')) as [P O]; [cbn [length] in *; lia|constructor|assumption|].
      split; [cbn [map app] in *; now constructor|constructor; [split; assumption|assumption]].
  - inversion Oi as [|? ? [G D] Oi']; subst. destruct ri as [|tn r'].
    + destruct (IH [] []) as [P O]; [cbn [length] in *; lia|constructor|constructor|].
      split; [cbn [map app]; now constructor|constructor; [split; assumption|assumption]].
    + inversion Oi' as [|? ? [G' D'] ?]; subst. rewrite U by assumption.
      destruct (IH (tn :: r') []) as [P O]; [cbn [length] in *; lia|assumption|constructor|].
      split; [cbn [map app] in *; now constructor|constructor; [split; assumption|assumption]].
  - inversion Oi as [|? ? [G D] Oi']; subst. inversion Oe as [|? ? [G1 D1] Oe']; subst.
    destruct (Z.ltb _ _).
    + rewrite U by assumption.
      destruct (IH ri (tj :: rj)) as [P O]; [cbn [length] in *; lia|assumption|assumption|].
      split; [cbn [map app ev] in *; now constructor|constructor; [cbn [eg ed]; lia|assumption]].
    + destruct rj as [|tn r'].
      * destruct (IH (ti :: ri) []) as [P O]; [cbn [length] in *; lia|assumption|assumption|].
        split; [|constructor; [split; assumption|assumption]].
        cbn [map]. rewrite P. cbn [map app]. rewrite app_nil_r.
        change (ev ti :: map ev ri ++ [ev tj]) with ((ev ti :: map ev ri) ++ [ev tj]).
        apply Permutation_cons_append.
      * inversion Oe' as [|? ? [G' D'] ?]; subst. rewrite U by assumption.
        destruct (IH (ti :: ri) (tn :: r')) as [P O]; [cbn [length] in *; lia|assumption|assumption|].
        split; [|constructor; [split; assumption|assumption]].
        change (map ev (tj :: tn :: r')) with (ev tj :: map ev (tn :: r')).
        rewrite <- Permutation_middle. cbn [map] in P |- *. now constructor.
Qed.

Lemma mc_dpos thr : forall fuel inc ents, (ents = [] \/ ones inc) -> gpos ents ->
  Forall (fun t => 0 <= ed t) inc -> Forall (fun t => 0 <= ed t) ents ->
  Forall (fun t => 0 <= ed t) (mc_loop fuel thr inc ents).
Proof.
  induction fuel as [|f IH]; intros inc ents O Gp Hi He; [constructor|]. cbn [mc_loop].
  destruct inc as [|ti ri], ents as [|tj rj].
  - constructor.
  - inversion He as [|? ? H1 H2]; subst. inversion Gp as [|? ? G1 G2]; subst. destruct rj as [|tn r'].
    + constructor; [assumption|]. apply IH; try constructor; constructor.
    + inversion G2; subst. inversion H2; subst. destruct (under thr tj tn) eqn:U.
      * apply IH; [right; constructor|constructor; [cbn [bump eg]; lia|assumption]|constructor|].
        constructor; [cbn [bump ed]; lia|assumption].
      * constructor; [assumption|]. apply IH; [right; constructor|assumption|constructor|assumption].
  - inversion Hi as [|? ? H1 H2]; subst. destruct ri as [|tn r'].
    + constructor; [assumption|]. apply IH; try constructor; constructor.
    + inversion H2; subst. destruct (under thr ti tn) eqn:U.
      * apply IH; [now left|constructor| |constructor]. constructor; [cbn [bump ed]; lia|assumption].
      * constructor; [assumption|]. apply IH; [now left|constructor|assumption|constructor].
  - destruct O as [O|O]; [discriminate|]. inversion O as [|? ? [G D] O']; subst.
    inversion Hi as [|? ? H1 H2]; subst. inversion He as [|? ? H3 H4]; subst. inversion Gp as [|? ? G1 G2]; subst.
    destruct (Z.ltb _ _).
    + destruct (under thr ti tj) eqn:U.
      * apply IH; [now right|constructor; [cbn [bump eg]; lia|assumption]|assumption|].
        constructor; [cbn [bump ed]; lia|assumption].
      * constructor; [cbn [eg ed]; lia|]. apply IH; [now right|assumption|assumption|assumption].
    + destruct rj as [|tn r'].
      * constructor; [assumption|]. apply IH; [now left|constructor|assumption|constructor].
      * inversion G2; subst. inversion H4; subst. destruct (under thr tj tn) eqn:U.
        -- apply IH; [now right|constructor; [cbn [bump eg]; lia|assumption]|assumption|].
           constructor; [cbn [bump ed]; lia|assumption].
        -- constructor; [assumption|]. apply IH; [now right|assumption|assumption|assumption].
Qed.

Record summ (e : Q) (n : Z) (es : list entry) (S : list Z) : Prop := {
  su_sorted : sorted_e es;
  su_gpos : gpos es;
  su_dpos : Forall (fun t => 0 <= ed t) es;
  su_cap : le_cap (cap (remove_threshold e n)) es;
  su_rank : pranked (bounds S) 0 es;
  su_sum : gs es = Z.of_nat (length S);
  su_top : Forall (fun x => exists t, In t es /\ x <= ev t) S;
  su_val : Forall (fun t => In (ev t) S) es;
  su_small : rthr e n <= 1 -> Permutation (map ev es) S /\ ones es
}.

Definition is_min_of (o : option Z) (l : list Z) : Prop :=
  match o with None => l = [] | Some m => is_minimum m l end.
Definition is_max_of (o : option Z) (l : list Z) : Prop :=
  match o with None => l = [] | Some m => is_maximum m l end.

Record base (e : Q) (s : gk) (vals : list Z) : Prop := {
  ba_eps : eps s = e;
  ba_count : gcount s = Z.of_nat (length vals);
  ba_min : is_min_of (gmin s) vals;
  ba_max : is_max_of (gmax s) vals
}.

Record inv (e : Q) (s : gk) (vals : list Z) : Prop := {
  in_base : base e s vals;
  in_S : exists S, summ e (gcount s) (entries s) S /\ Permutation vals (S ++ incoming s)
}.

Lemma bounds_pend S v lo hi : bounds S v lo hi -> pend S 0 v lo hi.
Proof. unfold bounds, pend. lia. Qed.

Lemma pranked_mono (P Q : Z -> Z -> Z -> Prop) : (forall v lo hi, P v lo hi -> Q v lo hi) ->
  forall l A, pranked P A l -> pranked Q A l.
Proof.
  intros H l A R. replace A with (A + 0) by lia. eapply pranked_impl; [|exact R].
  intros v lo hi X. rewrite !Z.add_0_r. now apply H.
Qed.

Lemma bounds_perm S S' : Permutation S S' -> forall l A, pranked (bounds S) A l -> pranked (bounds S') A l.
Proof.
  intros P. apply pranked_mono. intros v lo hi. unfold bounds.
  rewrite (upto_perm v _ _ P), (below_perm v _ _ P), (Permutation_length P). tauto.
Qed.

Lemma sort_vals l : Permutation (map ev (sort_e l)) (map ev l).
Proof. apply Permutation_map, sort_perm. Qed.

Lemma summ_perm e n es S S' : Permutation S S' -> summ e n es S -> summ e n es S'.
Proof.
  intros P H. destruct H. constructor; try assumption.
  - eapply bounds_perm; eassumption.
  - now rewrite <- (Permutation_length P).
  - eapply Permutation_Forall; eassumption.
  - eapply Forall_impl; [|exact su_val0]. cbn. intros a Ha. eapply Permutation_in; eassumption.
  - intros T. destruct (su_small0 T) as [A B]. split; [|assumption]. now rewrite A.
Qed.

(** compressing: [inc] are new entries of weight one *)
Lemma summ_merge e n n' es S inc : (0 < e)%Q -> n <= n' -> summ e n es S -> sorted_e inc -> ones inc ->
  summ e n' (mc_loop (length inc + length es + 1) (remove_threshold e n') inc es) (S ++ map ev inc).
Proof.
  intros He L H Si Oi. destruct H.
  assert (Lf : (length inc + length es < length inc + length es + 1)%nat) by lia.
  assert (Gi : gpos inc) by (eapply Forall_impl; [|exact Oi]; cbn; lia).
  constructor.
  - now apply mc_sorted.
  - now apply mc_gpos.
  - apply mc_dpos; [now right|assumption| |assumption]. eapply Forall_impl; [|exact Oi]. cbn; lia.
  - apply mc_cap; [unfold cap; lia| |].
    + eapply Forall_impl; [|exact Oi]. cbn. unfold cap. intros. lia.
    + eapply Forall_impl; [|exact su_cap0]. cbn. intros a Ha. pose proof (rthr_mono e n n' He L).
      unfold cap, rthr in *. lia.
  - apply (mc_ranked (remove_threshold e n') S (length inc + length es + 1) inc es 0 []);
      try assumption; try constructor.
    + eapply pranked_mono; [|exact su_rank0]. intros. now apply bounds_pend.
    + eapply Forall_impl; [|exact Oi]. cbn. intros a _. pose proof (upto_nonneg (ev a) S). lia.
    + cbn [length]. lia.
    + intros i Ii F. apply Forall_forall. intros x Ix. rewrite Forall_forall in su_top0, F.
      destruct (su_top0 x Ix) as (t & It & Lt). specialize (F t It). lia.
  - rewrite mc_weight by lia. rewrite app_length, map_length. rewrite su_sum0, (gs_ones inc) by assumption. lia.
  - apply Forall_app. split.
    + eapply Forall_impl; [|exact su_top0]. cbn. intros x (t & It & Lt).
      apply mc_last; try assumption. exists t. split; [apply in_or_app; now right|assumption].
    + apply Forall_forall. intros x Ix. apply in_map_iff in Ix. destruct Ix as (t & <- & It).
      apply mc_last; try assumption. exists t. split; [apply in_or_app; now left|lia].
  - apply Forall_forall. intros t It. apply mc_vals in It. apply in_or_app.
    destruct It as [It|It]; [now right|]. left. apply in_map_iff in It. destruct It as (x & <- & Ix).
    rewrite Forall_forall in su_val0. auto.
  - intros T. pose proof (rthr_mono e n n' He L).
    destruct su_small0 as [P O]; [lia|].
    destruct (mc_perm (remove_threshold e n') T (length inc + length es + 1) inc es Lf Oi O) as [P' O'].
    split; [|assumption]. rewrite P', P. apply Permutation_app_comm.
Qed.

Lemma summ_grow e n n' es S : (0 < e)%Q -> n <= n' -> summ e n es S -> summ e n' es S.
Proof.
  intros He L H. destruct H. pose proof (rthr_mono e n n' He L). constructor; try assumption.
  - eapply Forall_impl; [|exact su_cap0]. cbn. unfold cap, rthr in *. intros. lia.
  - intros T. apply su_small0. lia.
Qed.

Lemma ones_new l : ones (map (fun v => mkE v 1 0) l).
Proof. apply Forall_map. apply Forall_forall. cbn. auto. Qed.
Lemma vals_new l : map ev (map (fun v => mkE v 1 0) l) = l.
Proof. rewrite map_map. cbn. apply map_id. Qed.

Lemma mc_inv_extra e s S extra : (0 < e)%Q -> eps s = e -> summ e (gcount s) (entries s) S -> ones extra ->
  summ e (gcount s) (entries (merge_compress s extra)) (S ++ incoming s ++ map ev extra).
Proof.
  intros He E H O. unfold merge_compress. cbn [entries]. rewrite E.
  set (inc := sort_e (map (fun v => mkE v 1 0) (incoming s) ++ extra)).
  eapply summ_perm; [|apply (summ_merge e (gcount s)); [assumption|lia|exact H|apply sort_sorted|]].
  - apply Permutation_app_head. unfold inc. rewrite sort_vals, map_app, vals_new. reflexivity.
  - apply ones_sort. apply Forall_app. split; [apply ones_new|assumption].
Qed.

Lemma inv_mc e s vals : (0 < e)%Q -> inv e s vals -> inv e (merge_compress s []) vals.
Proof.
  intros He [B (S & H & P)]. constructor.
  - destruct B. constructor; assumption.
  - exists (S ++ incoming s). split; [|unfold merge_compress; cbn [incoming]; now rewrite app_nil_r].
    pose proof (mc_inv_extra e s S [] He (ba_eps _ _ _ B) H (Forall_nil _)) as K.
    cbn [map] in K. rewrite app_nil_r in K. exact K.
Qed.

Lemma inv_flush e s vals : (0 < e)%Q -> inv e s vals -> inv e (flush s) vals.
Proof. intros He H. unfold flush. destruct (incoming s); [assumption|now apply inv_mc]. Qed.

Lemma flush_incoming s : incoming (flush s) = [].
Proof. unfold flush. destruct (incoming s) eqn:E; [assumption|reflexivity]. Qed.
Lemma flush_base e s vals : base e s vals -> base e (flush s) vals.
Proof. intros B. unfold flush. destruct (incoming s); [assumption|]. destruct B. constructor; assumption. Qed.

Definition pre_add (s : gk) (v : Z) : gk :=
  mkGK (eps s) (entries s) (incoming s ++ [v])
              (match gmin s with None => Some v | Some m => if Z.ltb v m then Some v else Some m end)
              (match gmax s with None => Some v | Some m => if Z.ltb m v then Some v else Some m end)
              (gcount s + 1) (gsum_ s + v).
Lemma add_eq s v : add s v = pre_add s v \/ add s v = merge_compress (pre_add s v) [].
Proof. unfold add. fold (pre_add s v). destruct (Z.eqb _ _); [right|left]; reflexivity. Qed.

Lemma base_add e s vals v : base e s vals -> base e (pre_add s v) (v :: vals).
Proof.
  intros [E C M X]. constructor; cbn [pre_add eps gcount gmin gmax].
  - assumption.
  - rewrite C. cbn [length]. lia.
  - destruct (gmin s) as [m|]; cbn [is_min_of] in *.
    + destruct M as [I F]. destruct (Z.ltb_spec v m); (split; [|constructor]).
      * now left.
      * lia.
      * eapply Forall_impl; [|exact F]. cbn; intros; lia.
      * now right.
      * assumption.
      * assumption.
    + subst. split; [now left|repeat constructor; lia].
  - destruct (gmax s) as [m|]; cbn [is_max_of] in *.
    + destruct X as [I F]. destruct (Z.ltb_spec m v); (split; [|constructor]).
      * now left.
      * lia.
      * eapply Forall_impl; [|exact F]. cbn; intros; lia.
      * now right.
      * assumption.
      * assumption.
    + subst. split; [now left|repeat constructor; lia].
Qed.

Lemma inv_add e s vals v : (0 < e)%Q -> inv e s vals -> inv e (add s v) (v :: vals).
Proof.
  intros He [B (S & H & P)].
  assert (inv e (pre_add s v) (v :: vals)).
  { constructor; [now apply base_add|]. exists S. split.
    - cbn [pre_add gcount entries]. eapply summ_grow; [assumption| |exact H]. lia.
    - cbn [pre_add incoming]. rewrite P, app_assoc. apply Permutation_cons_append. }
  destruct (add_eq s v) as [->| ->]; [assumption|now apply inv_mc].
Qed.

Lemma inv_quantile e s vals q : (0 < e)%Q -> inv e s vals ->
  inv e (match quantile s q with Ok (_, s') => s' | Err _ => s end) vals.
Proof.
  intros He H. unfold quantile. destruct (negb _); [assumption|]. destruct (Z.eqb _ _); [assumption|].
  destruct (scan _ _ _ _); [now apply inv_flush|assumption].
Qed.

(** ** merge *)
Lemma mid_ones : forall l, ones l ->
  mid_entries l = removelast l.
Proof.
  induction l as [|t r IH]; intros O; [reflexivity|]. inversion O as [|? ? [G D] O']; subst.
  destruct r as [|tp1 r']; [reflexivity|]. inversion O' as [|? ? [G' D'] _]; subst.
  change (mid_entries (t :: tp1 :: r')) with
    (if_pos (eg tp1 + (ed tp1 - ed t)) (mkE (ev t) (eg tp1 + (ed tp1 - ed t)) 0) ++ mid_entries (tp1 :: r')).
  rewrite IH by assumption. rewrite G', D', D. cbn [if_pos Z.ltb Z.add Z.sub Z.compare app].
  change (removelast (t :: tp1 :: r')) with (t :: removelast (tp1 :: r')). destruct t; cbn in *; subst. reflexivity.
Qed.

Lemma exported_ones mn l : ones l -> exported 0 mn l = l.
Proof.
  intros O. destruct l as [|e0 r]; [reflexivity|]. unfold exported.
  rewrite mid_ones by assumption. inversion O as [|? ? [G D] O']; subst. rewrite G, D.
  assert (L : In (last (e0 :: r) e0) (e0 :: r)).
  { rewrite (app_removelast_last e0 (l := e0 :: r)) at 2 by discriminate. apply in_or_app. right. now left. }
  assert (K : eg (last (e0 :: r) e0) = 1 /\ ed (last (e0 :: r) e0) = 0).
  { unfold ones in O. rewrite Forall_forall in O. now apply O. }
  destruct K as [K1 K2]. rewrite K2. cbn [if_pos Z.ltb Z.add Z.sub Z.compare Z.opp Z.pos_sub app].
  transitivity (removelast (e0 :: r) ++ [last (e0 :: r) e0]).
  - f_equal. f_equal. destruct (last (e0 :: r) e0); cbn in *; subst. reflexivity.
  - symmetry. apply app_removelast_last. discriminate.
Qed.

Lemma base_merge e s o vs vo (en : list entry) (inc : list Z) : base e s vs -> base e o vo ->
  base e (mkGK (eps s) en inc (omin (gmin s) (gmin o)) (omax (gmax s) (gmax o))
            (gcount s + gcount o) (gsum_ s + gsum_ o)) (vs ++ vo).
Proof.
  intros [E C M X] [E' C' M' X']. constructor; cbn [eps gcount gmin gmax].
  - assumption.
  - rewrite C, C', app_length. lia.
  - destruct (gmin s) as [m|], (gmin o) as [m'|]; cbn [is_min_of omin] in *; subst; try rewrite app_nil_r; auto.
    destruct M as [I F], M' as [I' F']. split.
    + apply in_or_app. destruct (Z.min_spec m m') as [[_ ->]|[_ ->]]; auto.
    + apply Forall_app; split; (eapply Forall_impl; [|eassumption]); cbn; intros; lia.
  - destruct (gmax s) as [m|], (gmax o) as [m'|]; cbn [is_max_of omax] in *; subst; try rewrite app_nil_r; auto.
    destruct X as [I F], X' as [I' F']. split.
    + apply in_or_app. destruct (Z.max_spec m m') as [[_ ->]|[_ ->]]; auto.
    + apply Forall_app; split; (eapply Forall_impl; [|eassumption]); cbn; intros; lia.
Qed.

Lemma base_copy e s o vo : base e s [] -> base e o vo -> base e (gk_copy s o) vo.
Proof. intros [E _ _ _] [E' C M X]. constructor; try assumption. Qed.

Lemma flush_mc s x : flush (merge_compress s x) = merge_compress s x.
Proof. reflexivity. Qed.

Lemma small_spread e n : (0 < e)%Q -> 1 <= n -> (e * inject_Z (n - 1) < 1)%Q -> to_int (e * inject_Z (n - 1)) = 0.
Proof.
  intros He L H. pose proof (spread_nonneg e n He L).
  assert (to_int (e * inject_Z (n - 1)) < 1); [|lia].
  rewrite Zlt_Qlt. eapply Qle_lt_trans; [apply Qfloor_le|exact H].
Qed.

Lemma gk_merge_inv e s o vs vo : (0 < e)%Q -> inv e s vs -> inv e o vo ->
  (vs = [] \/ (e * inject_Z (Z.of_nat (length vo) - 1) < 1)%Q) ->
  exists s' o', gk_merge s o = Ok (s', o') /\ inv e s' (vs ++ vo).
Proof.
  intros He Hs Ho Sm. destruct Hs as [Bs (S & HS & PS)]. pose proof Ho as Ho'. destruct Ho' as [Bo (T & HT & PT)].
  unfold gk_merge. rewrite (ba_eps _ _ _ Bs), (ba_eps _ _ _ Bo), Qeq_bool_refl. cbn [negb].
  destruct (Z.eqb_spec (gcount o) 0) as [Z0|Z0].
  { exists s, o. split; [reflexivity|]. rewrite (ba_count _ _ _ Bo) in Z0. destruct vo; [|cbn [length] in Z0; lia].
    rewrite app_nil_r. constructor; [assumption|]. exists S. now split. }
  destruct (Z.eqb_spec (gcount s) 0) as [Z1|Z1].
  { exists (gk_copy s o), o. split; [reflexivity|]. rewrite (ba_count _ _ _ Bs) in Z1.
    destruct vs; [|cbn [length] in Z1; lia]. cbn [app]. constructor; [now apply base_copy|].
    exists T. now split. }
  assert (Sm' : (e * inject_Z (gcount o - 1) < 1)%Q).
  { destruct Sm as [->|Sm]; [rewrite (ba_count _ _ _ Bs) in Z1; now destruct Z1|]. now rewrite (ba_count _ _ _ Bo). }
  assert (N1 : 1 <= gcount o) by (rewrite (ba_count _ _ _ Bo) in Z0 |- *; lia).
  rewrite (small_spread e (gcount o) He N1 Sm').
  pose proof (mc_inv_extra e o T [] He (ba_eps _ _ _ Bo) HT (Forall_nil _)) as K.
  cbn [map] in K. rewrite app_nil_r in K. change (gcount o) with (gcount (merge_compress o [])) in K.
  destruct (su_small _ _ _ _ K (small_rthr _ _ Sm')) as [PK OK].
  change (gmin (merge_compress o [])) with (gmin o).
  assert (M : exists mn, gmin o = Some mn).
  { destruct (gmin o) eqn:Em; [eauto|]. pose proof (ba_min _ _ _ Bo) as Q. rewrite Em in Q. cbn in Q. subst.
    rewrite (ba_count _ _ _ Bo) in Z0. now destruct Z0. }
  destruct M as [mn Em]. rewrite Em.
  destruct (entries (merge_compress o [])) as [|e0 r] eqn:EE.
  { exfalso. apply Permutation_length in PK. cbn [map length] in PK.
    rewrite <- (Permutation_length PT) in PK. rewrite (ba_count _ _ _ Bo) in Z0. lia. }
  eexists _, _. split; [reflexivity|]. rewrite flush_mc, EE, exported_ones by assumption.
  pose proof (ba_eps _ _ _ Bs) as Ee; subst e. rewrite <- Em in *.
  set (s1 := mkGK _ _ _ _ _ _ _).
  constructor.
  - unfold s1, merge_compress.
    apply (base_merge (eps s) s o vs vo _ []); [assumption|].
    destruct Bo; constructor; assumption.
  - exists (S ++ incoming s ++ map ev (e0 :: r)). split.
    + change (gcount (merge_compress s1 (e0 :: r))) with (gcount s1).
      apply (mc_inv_extra (eps s) s1 S (e0 :: r)); [assumption|reflexivity| |assumption].
      unfold s1. cbn [gcount entries]. eapply summ_grow; [assumption| |exact HS]. lia.
    + change (incoming (merge_compress s1 (e0 :: r))) with (@nil Z). rewrite app_nil_r, PK, <- PT, PS.
      now rewrite app_assoc.
Qed.

Lemma gk_merge_other e s o vs vo : (0 < e)%Q -> base e s vs -> inv e o vo ->
  inv e (match gk_merge s o with Ok (_, o') => o' | Err _ => o end) vo.
Proof.
  intros He Bs Ho. unfold gk_merge.
  destruct (negb _); [assumption|]. destruct (Z.eqb (gcount o) 0); [assumption|].
  destruct (Z.eqb (gcount s) 0); [assumption|].
  destruct (entries (merge_compress o [])); [assumption|].
  destruct (gmin (merge_compress o [])); [|assumption]. rewrite flush_mc. now apply inv_mc.
Qed.

Lemma merge_comp_base e s vals x : base e s vals -> base e (merge_compress s x) vals.
Proof. intros []. constructor; assumption. Qed.

(** counts, minimum and maximum: any history *)
Lemma if_pos_gpos g v : gpos (if_pos g (mkE v g 0)).
Proof. unfold if_pos. destruct (Z.ltb_spec 0 g); [constructor; [cbn [eg]; lia|constructor]|constructor]. Qed.
Lemma if_pos_gs g v : g <= gs (if_pos g (mkE v g 0)).
Proof. unfold if_pos. destruct (Z.ltb_spec 0 g); unfold gs; cbn [map zsum eg]; lia. Qed.
Lemma mid_gpos l : gpos (mid_entries l).
Proof.
  induction l as [|t r IH]; [constructor|]. destruct r as [|tp1 r']; [constructor|].
  change (mid_entries (t :: tp1 :: r')) with
    (if_pos (eg tp1 + (ed tp1 - ed t)) (mkE (ev t) (eg tp1 + (ed tp1 - ed t)) 0) ++ mid_entries (tp1 :: r')).
  apply Forall_app. split; [apply if_pos_gpos|exact IH].
Qed.
Lemma mid_gs : forall l t, gs l + ed (last l t) - ed t <= gs (mid_entries (t :: l)).
Proof.
  induction l as [|tp1 r IH]; intros t.
  - cbn. lia.
  - change (mid_entries (t :: tp1 :: r)) with
    (if_pos (eg tp1 + (ed tp1 - ed t)) (mkE (ev t) (eg tp1 + (ed tp1 - ed t)) 0) ++ mid_entries (tp1 :: r)).
    rewrite gs_app. pose proof (if_pos_gs (eg tp1 + (ed tp1 - ed t)) (ev t)). specialize (IH tp1).
    rewrite gs_cons. destruct r as [|y r'].
    + cbn [last] in *. unfold gs in *. cbn [map zsum] in *. lia.
    + assert (LL : forall (l : list entry) a b c, last (a :: l) b = last (a :: l) c).
      { clear. induction l as [|x l IH]; intros a b c; [reflexivity|]. change (last (x :: l) b = last (x :: l) c). apply IH. }
      change (last (tp1 :: y :: r') t) with (last (y :: r') t). rewrite (LL r' y t tp1). lia.
Qed.
Lemma exported_gs sp mn e0 r : gs (e0 :: r) <= gs (exported sp mn (e0 :: r)).
Proof.
  unfold exported. rewrite !gs_app. pose proof (if_pos_gs (eg e0 + ed e0 - 1 - sp) mn).
  pose proof (if_pos_gs (sp + 1 - ed (last (e0 :: r) e0)) (ev (last (e0 :: r) e0))).
  pose proof (mid_gs r e0). rewrite gs_cons.
  assert (ed (last (e0 :: r) e0) = ed (last r e0)) by (destruct r; reflexivity). lia.
Qed.
Lemma exported_gpos sp mn l : gpos (exported sp mn l).
Proof.
  unfold exported. destruct l; [constructor|]. apply Forall_app. split; [apply if_pos_gpos|].
  apply Forall_app. split; [apply mid_gpos|apply if_pos_gpos].
Qed.
Lemma mid_vals l : Forall (fun t => In (ev t) (map ev l)) (mid_entries l).
Proof.
  induction l as [|t r IH]; [constructor|]. destruct r as [|tp1 r']; [constructor|].
  change (mid_entries (t :: tp1 :: r')) with
    (if_pos (eg tp1 + (ed tp1 - ed t)) (mkE (ev t) (eg tp1 + (ed tp1 - ed t)) 0) ++ mid_entries (tp1 :: r')).
  apply Forall_app. split.
  - unfold if_pos. destruct (Z.ltb _ _); repeat constructor.
  - eapply Forall_impl; [|exact IH]. cbn [map In]. tauto.
Qed.
Lemma exported_vals sp mn l : Forall (fun t => ev t = mn \/ In (ev t) (map ev l)) (exported sp mn l).
Proof.
  unfold exported. destruct l as [|e0 r]; [constructor|]. apply Forall_app. split.
  { unfold if_pos. destruct (Z.ltb _ _); repeat constructor. }
  apply Forall_app. split.
  { eapply Forall_impl; [|apply mid_vals]. cbn beta. tauto. }
  unfold if_pos. destruct (Z.ltb _ _); [|constructor]. constructor; [|constructor].
  right. cbn [ev]. apply in_map. rewrite (app_removelast_last e0 (l := e0 :: r)) at 2 by discriminate.
  apply in_or_app. right. now left.
Qed.

Record winv (e : Q) (s : gk) (vals : list Z) : Prop := {
  wi_base : base e s vals;
  wi_sorted : sorted_e (entries s);
  wi_gpos : gpos (entries s);
  wi_sum : Z.of_nat (length vals) <= gs (entries s) + Z.of_nat (length (incoming s));
  wi_val : Forall (fun t => In (ev t) vals) (entries s);
  wi_inc : Forall (fun x => In x vals) (incoming s)
}.

Lemma mc_winv e s vals extra k : base e s vals -> sorted_e (entries s) -> gpos (entries s) -> gpos extra ->
  Forall (fun t => In (ev t) vals) (entries s) -> Forall (fun t => In (ev t) vals) extra ->
  Forall (fun x => In x vals) (incoming s) ->
  k <= gs (entries s) + Z.of_nat (length (incoming s)) -> Z.of_nat (length vals) <= k + gs extra ->
  winv e (merge_compress s extra) vals.
Proof.
  intros B So G Gx V Vx Vi L1 L2. unfold merge_compress.
  set (inc := sort_e (map (fun v => mkE v 1 0) (incoming s) ++ extra)).
  assert (Gi : gpos inc).
  { eapply Permutation_Forall; [symmetry; apply sort_perm|]. apply Forall_app. split; [|assumption].
    eapply Forall_impl; [|apply ones_new]. cbn; lia. }
  constructor; cbn [entries incoming].
  - destruct B; constructor; assumption.
  - apply mc_sorted; [apply sort_sorted|assumption].
  - now apply mc_gpos.
  - rewrite mc_weight by lia. unfold inc. rewrite (gs_perm _ _ (sort_perm _)), gs_app, (gs_ones _ (ones_new _)), map_length.
    cbn [length]. lia.
  - apply Forall_forall. intros t It. apply mc_vals in It. rewrite Forall_forall in V, Vx, Vi. destruct It as [It|It].
    + apply (Permutation_in _ (sort_vals _)) in It. rewrite map_app, vals_new in It. apply in_app_or in It.
      destruct It as [It|It]; [auto|]. apply in_map_iff in It. destruct It as (x & <- & Ix). auto.
    + apply in_map_iff in It. destruct It as (x & <- & Ix). auto.
  - constructor.
Qed.

Lemma winv_mc e s vals : winv e s vals -> winv e (merge_compress s []) vals.
Proof.
  intros []. apply (mc_winv e s vals [] (Z.of_nat (length vals))); try assumption; try apply Forall_nil.
  unfold gs; cbn [map zsum]. lia.
Qed.
Lemma winv_flush e s vals : winv e s vals -> winv e (flush s) vals.
Proof. intros H. unfold flush. destruct (incoming s); [assumption|now apply winv_mc]. Qed.
Lemma winv_add e s vals v : winv e s vals -> winv e (add s v) (v :: vals).
Proof.
  intros H. assert (winv e (pre_add s v) (v :: vals)).
  { destruct H. constructor; [now apply base_add| | | | |]; cbn [pre_add entries incoming].
    - assumption.
    - assumption.
    - rewrite app_length. cbn [length]. lia.
    - eapply Forall_impl; [|exact wi_val0]. cbn. tauto.
    - apply Forall_app. split; [eapply Forall_impl; [|exact wi_inc0]; cbn; tauto|repeat constructor]. }
  destruct (add_eq s v) as [->| ->]; [assumption|now apply winv_mc].
Qed.

Lemma nonempty_gs l : 0 < gs l -> exists a r, l = a :: r.
Proof. destruct l; [cbn; lia|eauto]. Qed.

Lemma gk_merge_winv e s o vs vo : winv e s vs -> winv e o vo ->
  exists s' o', gk_merge s o = Ok (s', o') /\ winv e s' (vs ++ vo) /\ winv e o' vo.
Proof.
  intros Hs Ho. pose proof (wi_base _ _ _ Hs) as Bs. pose proof (wi_base _ _ _ Ho) as Bo.
  unfold gk_merge. rewrite (ba_eps _ _ _ Bs), (ba_eps _ _ _ Bo), Qeq_bool_refl. cbn [negb].
  destruct (Z.eqb_spec (gcount o) 0) as [Z0|Z0].
  { exists s, o. split; [reflexivity|]. rewrite (ba_count _ _ _ Bo) in Z0. destruct vo; [|cbn [length] in Z0; lia].
    rewrite app_nil_r. now split. }
  destruct (Z.eqb_spec (gcount s) 0) as [Z1|Z1].
  { exists (gk_copy s o), o. split; [reflexivity|]. rewrite (ba_count _ _ _ Bs) in Z1.
    destruct vs; [|cbn [length] in Z1; lia]. cbn [app]. split; [|assumption].
    destruct Ho; constructor; try assumption. now apply base_copy. }
  pose proof (winv_mc _ _ _ Ho) as Ho1.
  assert (NE : exists a r, entries (merge_compress o []) = a :: r).
  { apply nonempty_gs. pose proof (wi_sum _ _ _ Ho1) as W. cbn [incoming merge_compress length] in W.
    change (incoming (merge_compress o [])) with (@nil Z) in W. cbn [length] in W.
    rewrite (ba_count _ _ _ Bo) in Z0. lia. }
  destruct NE as (a & r & EE). rewrite EE.
  change (gmin (merge_compress o [])) with (gmin o).
  assert (M : exists mn, gmin o = Some mn).
  { destruct (gmin o) eqn:Em; [eauto|]. pose proof (ba_min _ _ _ Bo) as Q. rewrite Em in Q. cbn in Q. subst.
    rewrite (ba_count _ _ _ Bo) in Z0. now destruct Z0. }
  destruct M as [mn Em]. rewrite Em.
  eexists _, _. split; [reflexivity|]. rewrite flush_mc, EE. split; [|assumption].
  pose proof (ba_eps _ _ _ Bs) as Ee; subst e. rewrite <- Em.
  set (s1 := mkGK _ _ _ _ _ _ _).
  destruct Hs. eapply (mc_winv (eps s) s1 (vs ++ vo) _ (Z.of_nat (length vs))).
  - apply base_merge; assumption.
  - assumption.
  - assumption.
  - apply exported_gpos.
  - eapply Forall_impl; [|exact wi_val0]. cbn. intros t Ht. apply in_or_app. now left.
  - eapply Forall_impl; [|apply exported_vals]. cbn beta. intros t [Ht|Ht]; apply in_or_app; right.
    + pose proof (ba_min _ _ _ Bo) as Q. rewrite Em in Q. cbn in Q. destruct Q as [Q _]. now rewrite Ht.
    + rewrite <- EE in Ht. apply in_map_iff in Ht. destruct Ht as (x & <- & Ix).
      pose proof (wi_val _ _ _ Ho1) as V. rewrite Forall_forall in V. auto.
  - eapply Forall_impl; [|exact wi_inc0]. cbn. intros t Ht. apply in_or_app. now left.
  - exact wi_sum0.
  - rewrite app_length. pose proof (exported_gs (to_int (eps s * inject_Z (gcount o - 1))) mn a r) as XG.
    pose proof (wi_sum _ _ _ Ho1) as W. rewrite EE in W.
    change (incoming (merge_compress o [])) with (@nil Z) in W. cbn [length] in W. lia.
Qed.

Lemma winv_quantile e s vals q : winv e s vals ->
  winv e (match quantile s q with Ok (_, s') => s' | Err _ => s end) vals.
Proof.
  intros H. unfold quantile. destruct (negb _); [assumption|]. destruct (Z.eqb _ _); [assumption|].
  destruct (scan _ _ _ _); [now apply winv_flush|assumption].
Qed.

Lemma build_winv e h : winv e (build e h) (values h).
Proof.
  induction h as [|h IH v|h IH q|h IH|h IH o IHo|o IHo h IH]; cbn [build values].
  - constructor; try constructor; try reflexivity.
  - now apply winv_add.
  - now apply winv_quantile.
  - unfold gk_len. cbn [snd]. now apply winv_flush.
  - destruct (gk_merge_winv _ _ _ _ _ IH IHo) as (s' & o' & -> & W & _). exact W.
  - destruct (gk_merge_winv _ _ _ _ _ IH IHo) as (s' & o' & -> & _ & W). exact W.
Qed.

Lemma build_inv e h : (0 < e)%Q -> lossless e h -> inv e (build e h) (values h).
Proof.
  intros He. induction h as [|h IH v|h IH q|h IH|h IH o IHo|o IHo h IH]; cbn [build values lossless]; intros L.
  - constructor; [constructor; reflexivity|]. exists []. split; [|constructor].
    constructor; try apply Forall_nil; try exact I; try reflexivity; [apply SSorted_nil|].
    intros _. split; [apply Permutation_refl|apply Forall_nil].
  - now apply inv_add, IH.
  - now apply inv_quantile, IH.
  - unfold gk_len. cbn [snd]. now apply inv_flush, IH.
  - destruct L as (L1 & L2 & L3).
    destruct (gk_merge_inv e _ _ _ _ He (IH L1) (IHo L2) L3) as (s' & o' & -> & W). exact W.
  - apply (gk_merge_other e _ _ (values h)); [assumption|apply build_winv|now apply IHo].
Qed.

(** ** the scan *)
Lemma rank_between S v lo hi : bounds S v lo hi -> In v S -> lo <= hi -> exists r, has_rank v S r /\ lo <= r <= hi.
Proof.
  intros (A & B & C) I L. exists (Z.max lo (below v S + 1)). unfold has_rank.
  pose proof (below_lt_upto v S I). lia.
Qed.

Lemma scan_rank S bound c : forall l A p,
  pranked (bounds S) A l -> le_cap c l -> Forall (fun t => 0 <= ed t) l -> Forall (fun t => In (ev t) S) l ->
  (exists r, has_rank p S r /\ A <= r <= bound) ->
  exists v r, scan bound A (Some p) l = Some v /\ has_rank v S r /\ r <= bound /\ (bound + 1 - c <= r \/ A + gs l <= r).
Proof.
  induction l as [|e l IH]; intros A p R C D V (rp & Hp & Lp); cbn [scan].
  - exists p, rp. split; [reflexivity|]. split; [assumption|]. unfold gs; cbn [map zsum]. lia.
  - inversion C as [|? ? C1 C2]; subst. inversion V as [|? ? V1 V2]; subst. inversion D as [|? ? D1 D2]; subst. cbn [pranked] in R. destruct R as [R1 R2].
    destruct (Z.ltb_spec bound (A + eg e + ed e)) as [Lt|Ge].
    + exists p, rp. split; [reflexivity|]. split; [assumption|]. lia.
    + destruct (IH (A + eg e) (ev e)) as (v & r & E & H & L1 & L2); try assumption.
      { destruct R1 as (B1 & B2 & B3). pose proof (below_lt_upto _ _ V1) as BU.
        exists (Z.max (A + eg e) (below (ev e) S + 1)). unfold has_rank. lia. }
      exists v, r. rewrite gs_cons. split; [assumption|]. split; [assumption|]. lia.
Qed.
