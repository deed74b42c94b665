(** Proofs about MDLP (Model/Mdlp.v). *)
From Coq Require Import List ZArith Bool Lia Sorting Permutation.
From Verif Require Import Model.Arr Model.Multi Model.Mdlp Spec.CoreSpec Spec.MdlpSpec Proofs.MultiP.
Import ListNotations.
Open Scope Z_scope.

(** in-order splits of d with their chunks *)
Inductive cut (u : Z) (leaf : nat) : list xy -> list Z -> list (list xy) -> Prop :=
| cut_leaf : forall d, cut u leaf d [] [d]
| cut_node : forall d1 d2 s ns1 ns2 cs1 cs2,
    cut u leaf d1 ns1 cs1 -> cut u leaf d2 ns2 cs2 ->
    (forall a, In a d1 -> u * fst a <= s) -> (forall a, In a d2 -> s < u * fst a) ->
    (leaf <= length d1)%nat -> (leaf <= length d2)%nat ->
    cut u leaf (d1 ++ d2) (ns1 ++ s :: ns2) (cs1 ++ cs2).

Lemma ss_right_le mc d s : (ss_right mc d s <= length d)%nat.
Proof. induction d as [|a d IH]; cbn [ss_right length]; [lia|]. destruct (Z.leb_spec (unit mc * fst a) s); lia. Qed.

Lemma pden_pos mc : (1 <= mc)%nat -> 0 < pden mc.
Proof. intros H. unfold pden. destruct (Nat.eqb_spec mc 1); lia. Qed.
Lemma unit_pos mc : (1 <= mc)%nat -> 0 < unit mc.
Proof. intros H. unfold unit. pose proof (pden_pos mc H). lia. Qed.

Lemma ss_right_firstn mc d s : forall a, In a (firstn (ss_right mc d s) d) -> unit mc * fst a <= s.
Proof.
  induction d as [|b d IH]; intros a H; cbn [ss_right] in H.
  - destruct H.
  - destruct (Z.leb_spec (unit mc * fst b) s).
    + cbn [firstn] in H. destruct H as [<-|H]; [lia|auto].
    + destruct H.
Qed.
Lemma ss_right_skipn mc d s : (1 <= mc)%nat -> sorted_by_x d ->
  forall a, In a (skipn (ss_right mc d s) d) -> s < unit mc * fst a.
Proof.
  intros Hmc. pose proof (unit_pos mc Hmc) as HU. induction d as [|b d IH]; intros Hs a H; cbn [ss_right] in H.
  - destruct H.
  - inversion Hs as [|? ? Hd Hb]; subst. destruct (Z.leb_spec (unit mc * fst b) s).
    + cbn [skipn] in H. auto.
    + cbn [skipn] in H. destruct H as [<-|H]; [lia|]. rewrite Forall_forall in Hb. specialize (Hb _ H).
      nia.
Qed.

Lemma sorted_firstn {A} (R : A -> A -> Prop) l : forall n, StronglySorted R l -> StronglySorted R (firstn n l).
Proof.
  induction l as [|a l IH]; intros [|n] H; cbn [firstn]; try constructor; inversion H; subst; auto.
  rewrite Forall_forall in *. intros x Hx. apply H3.
  revert n x Hx. clear. induction l as [|b l IH]; intros [|n] x H; cbn in H; try destruct H.
  - now left. - right. eauto.
Qed.
Lemma sorted_skipn {A} (R : A -> A -> Prop) l : forall n, StronglySorted R l -> StronglySorted R (skipn n l).
Proof. induction l as [|a l IH]; intros [|n] H; cbn [skipn]; auto. inversion H; auto. Qed.

Section O.
  Context {G : Type} (zero : G) (gtb : G -> G -> bool) (gain : list nat -> list nat -> list nat -> G)
          (criterion : list nat -> list nat -> list nat -> bool).
  Notation bests := (best_split gtb gain).
  Notation finds := (find_split zero gtb gain).
  Notation recs := (recurse zero gtb gain criterion).

  Lemma best_split_ok mc leaf d : forall cs m b s, bests mc leaf d m b cs = Some s ->
    b = Some s \/ (In s cs /\ (leaf <= ss_right mc d s)%nat /\ (leaf <= length d - ss_right mc d s)%nat).
  Proof.
    induction cs as [|c cs IH]; intros m b s H; cbn [best_split] in H; [now left|].
    destruct ((leaf <=? ss_right mc d c)%nat && (leaf <=? length d - ss_right mc d c)%nat)%bool eqn:E.
    - apply andb_true_iff in E. destruct E as [E1 E2]. apply Nat.leb_le in E1, E2. destruct (gtb _ m).
      + apply IH in H. destruct H as [[= <-]|[H ?]]; right; [split; [now left|auto]|split; [now right|auto]].
      + apply IH in H. destruct H as [H|[H ?]]; [now left|right; split; [now right|auto]].
    - apply IH in H. destruct H as [H|[H ?]]; [now left|right; split; [now right|auto]].
  Qed.
  Lemma find_split_ok mc leaf d s : finds mc leaf d = Some s ->
    In s (candidates mc d) /\ (leaf <= ss_right mc d s)%nat /\ (leaf <= length d - ss_right mc d s)%nat.
  Proof. intros H. apply best_split_ok in H. destruct H as [H|H]; [discriminate|exact H]. Qed.

  Lemma recurse_total mc leaf ms : (1 <= leaf)%nat -> forall fuel d sp, (length d < fuel)%nat ->
    exists r, recs fuel mc leaf ms d sp = Some r.
  Proof.
    intros Hl. induction fuel as [|f IH]; intros d sp H; [lia|]. cbn [recurse].
    destruct (finds mc leaf d) as [s|] eqn:E; [|eauto]. apply find_split_ok in E. destruct E as (_ & E1 & E2).
    cbv zeta. destruct (terminate _ _ _ _); [eauto|].
    destruct (IH (firstn (ss_right mc d s) d) (sp ++ [s])) as [r ->].
    { rewrite firstn_length. lia. }
    apply IH. rewrite skipn_length. lia.
  Qed.

  Lemma recurse_cut mc leaf ms : (1 <= mc)%nat -> forall fuel d sp r, sorted_by_x d ->
    recs fuel mc leaf ms d sp = Some r ->
    exists new ns cs, r = sp ++ new /\ Permutation new ns /\ cut (unit mc) leaf d ns cs.
  Proof.
    intros Hmc. induction fuel as [|f IH]; intros d sp r Hd H; [discriminate|]. cbn [recurse] in H.
    destruct (finds mc leaf d) as [s|] eqn:E.
    2:{ injection H as <-. exists [], [], [d]. rewrite app_nil_r. repeat split; auto. constructor. }
    apply find_split_ok in E. destruct E as (_ & E1 & E2).
    assert (L1 : (leaf <= length (firstn (ss_right mc d s) d))%nat).
    { rewrite firstn_length. pose proof (ss_right_le mc d s). lia. }
    assert (L2 : (leaf <= length (skipn (ss_right mc d s) d))%nat) by (rewrite skipn_length; lia).
    pose proof (ss_right_firstn mc d s) as F1. pose proof (ss_right_skipn mc d s Hmc Hd) as F2.
    cbv zeta in H. set (t := ss_right mc d s) in *. destruct (terminate _ _ _ _).
    - injection H as <-. exists [s], ([] ++ s :: []), ([firstn t d] ++ [skipn t d]). split; [reflexivity|]. split.
      + reflexivity.
      + rewrite <- (firstn_skipn t d) at 1. apply cut_node; auto; constructor.
    - destruct (recs f mc leaf ms (firstn t d) (sp ++ [s])) as [sp1|] eqn:R1; [|discriminate].
      apply IH in R1; [|apply sorted_firstn; exact Hd]. apply IH in H; [|apply sorted_skipn; exact Hd].
      destruct R1 as (new1 & ns1 & cs1 & -> & P1 & C1). destruct H as (new2 & ns2 & cs2 & -> & P2 & C2).
      exists (s :: new1 ++ new2), (ns1 ++ s :: ns2), (cs1 ++ cs2). split; [now rewrite <- !app_assoc|]. split.
      + rewrite P1, P2. apply Permutation_middle.
      + rewrite <- (firstn_skipn t d) at 1. now apply cut_node.
  Qed.
End O.

Section Cut.
  Variables (u : Z) (leaf : nat).
  Hypothesis Hu : 0 < u.
  Hypothesis Hl : (1 <= leaf)%nat.
  Lemma cut_between d ns cs : cut u leaf d ns cs -> forall s, In s ns ->
    exists a b, In a d /\ In b d /\ u * fst a <= s /\ s < u * fst b.
  Proof.
    induction 1 as [d|d1 d2 s0 ns1 ns2 cs1 cs2 C1 IH1 C2 IH2 H1 H2 L1 L2]; intros s Hs; [destruct Hs|].
    apply in_app_or in Hs. destruct Hs as [Hs|[<-|Hs]].
    - destruct (IH1 s Hs) as (a & b & ? & ? & ? & ?). exists a, b. rewrite !in_app_iff. auto.
    - destruct d1 as [|a d1]; [cbn in L1; lia|]. destruct d2 as [|b d2]; [cbn in L2; lia|].
      exists a, b. rewrite !in_app_iff. repeat split; [left; now left|right; now left| |].
      + apply H1; now left. + apply H2; now left.
    - destruct (IH2 s Hs) as (a & b & ? & ? & ? & ?). exists a, b. rewrite !in_app_iff. auto.
  Qed.
  Lemma increasing_app a b : increasing a -> increasing b -> (forall x y, In x a -> In y b -> x < y) ->
    increasing (a ++ b).
  Proof.
    induction a as [|x a IH]; intros Ha Hb H; cbn [app]; [exact Hb|]. inversion Ha as [|? ? Ha' Hx]; subst.
    constructor; [apply IH; auto; intros; apply H; [now right|assumption]|].
    rewrite Forall_forall in *. intros y Hy. apply in_app_or in Hy. destruct Hy; [now apply Hx|apply H; [now left|assumption]].
  Qed.
  Lemma cut_increasing d ns cs : cut u leaf d ns cs -> increasing ns.
  Proof.
    induction 1 as [d|d1 d2 s0 ns1 ns2 cs1 cs2 C1 IH1 C2 IH2 H1 H2 L1 L2]; [constructor|].
    pose proof (cut_between _ _ _ C1) as B1. pose proof (cut_between _ _ _ C2) as B2.
    assert (K1 : forall x, In x ns1 -> x < s0).
    { intros x Hx. destruct (B1 x Hx) as (_ & b & _ & Hb & _ & ?). specialize (H1 b Hb). lia. }
    assert (K2 : forall x, In x ns2 -> s0 < x).
    { intros x Hx. destruct (B2 x Hx) as (a & _ & Ha & _ & ? & _). specialize (H2 a Ha). lia. }
    apply increasing_app; auto.
    - constructor; auto. rewrite Forall_forall. auto.
    - intros x y Hx [<-|Hy]; [auto|]. specialize (K1 x Hx). specialize (K2 y Hy). lia.
  Qed.
  Lemma cut_size d ns cs : cut u leaf d ns cs -> (leaf <= length d)%nat -> forall c, In c cs -> (leaf <= length c)%nat.
  Proof.
    induction 1 as [d|d1 d2 s0 ns1 ns2 cs1 cs2 C1 IH1 C2 IH2 H1 H2 L1 L2]; intros L c Hc.
    - destruct Hc as [<-|[]]; exact L.
    - apply in_app_or in Hc. destruct Hc; auto.
  Qed.
  Lemma cut_len d ns cs : cut u leaf d ns cs -> length cs = S (length ns).
  Proof. induction 1; [reflexivity|]. rewrite !app_length. cbn [length]. lia. Qed.
  (** every element of the i-th chunk is in the i-th interval *)
  Lemma cut_chunk d ns cs : cut u leaf d ns cs -> forall i c a, nth_error cs i = Some c -> In a c ->
    In a d /\ in_leaf u ns i (fst a) = true.
  Proof.
    induction 1 as [d|d1 d2 s0 ns1 ns2 cs1 cs2 C1 IH1 C2 IH2 H1 H2 L1 L2]; intros i c a Hc Ha.
    - destruct i as [|[|i]]; cbn in Hc; try discriminate. injection Hc as <-. split; [exact Ha|reflexivity].
    - pose proof (cut_len _ _ _ C1) as N1. pose proof (cut_len _ _ _ C2) as N2.
      destruct (Nat.lt_ge_cases i (length cs1)) as [Hi|Hi].
      + rewrite nth_error_app1 in Hc by exact Hi. destruct (IH1 i c a Hc Ha) as [Ia La].
        split; [apply in_or_app; now left|]. unfold in_leaf in *. apply andb_true_iff in La. destruct La as [La Lb].
        apply andb_true_iff. split.
        * destruct (Nat.lt_ge_cases i (length ns1)) as [Hj|Hj].
          -- rewrite nth_error_app1 by exact Hj. exact La.
          -- replace i with (length ns1) by lia. rewrite nth_error_app2 by lia. rewrite Nat.sub_diag. cbn [nth_error].
             apply Z.leb_le. apply H1. exact Ia.
        * destruct i as [|j]; [reflexivity|]. rewrite nth_error_app1 by lia. exact Lb.
      + rewrite nth_error_app2 in Hc by exact Hi. destruct (IH2 _ c a Hc Ha) as [Ia La].
        split; [apply in_or_app; now right|]. unfold in_leaf in *. apply andb_true_iff in La. destruct La as [La Lb].
        apply andb_true_iff.
        destruct i as [|j]; [lia|]. split.
        * rewrite nth_error_app2 by lia. replace (S j - length ns1)%nat with (S (S j - length cs1)) by lia. exact La.
        * rewrite nth_error_app2 by lia. destruct (S j - length cs1)%nat as [|q] eqn:Q.
          -- replace (j - length ns1)%nat with 0%nat by lia. cbn [nth_error]. apply Z.ltb_lt. now apply H2.
          -- replace (j - length ns1)%nat with (S q) by lia. exact Lb.
  Qed.
  Lemma cut_count d ns cs : cut u leaf d ns cs -> (leaf <= length d)%nat -> forall i, (i <= length ns)%nat ->
    (leaf <= leaf_size u ns d i)%nat.
  Proof.
    intros C L i Hi. pose proof (cut_len _ _ _ C) as N. destruct (nth_error cs i) as [c|] eqn:E.
    2:{ apply nth_error_None in E. lia. }
    assert (Hc : (leaf <= length c)%nat) by (eapply cut_size; eauto; eapply nth_error_In; eauto).
    pose proof (cut_chunk _ _ _ C i c) as K. specialize (fun a => K a E).
    enough (length c <= leaf_size u ns d i)%nat by lia.
    assert (sub : exists p q, d = p ++ c ++ q).
    { clear - C E. revert i c E. induction C as [d|d1 d2 s0 ns1 ns2 cs1 cs2 C1 IH1 C2 IH2 H1 H2 L1 L2]; intros i c E.
      - destruct i as [|[|i]]; cbn in E; try discriminate. injection E as <-. exists [], []. now rewrite app_nil_r.
      - destruct (Nat.lt_ge_cases i (length cs1)) as [Hi|Hi].
        + rewrite nth_error_app1 in E by exact Hi. destruct (IH1 _ _ E) as (p & q & ->).
          exists p, (q ++ d2). now rewrite <- !app_assoc.
        + rewrite nth_error_app2 in E by exact Hi. destruct (IH2 _ _ E) as (p & q & ->).
          exists (d1 ++ p), q. now rewrite <- !app_assoc. }
    destruct sub as (p & q & ->). unfold leaf_size. rewrite !filter_app, !app_length.
    enough (F : filter (fun a : xy => in_leaf u ns i (fst a)) c = c) by (unfold xy in *; rewrite F; lia).
    assert (K' : forall a, In a c -> in_leaf u ns i (fst a) = true) by (intros a Ha; apply (K a Ha)).
    clear - K'. induction c as [|a c IH]; [reflexivity|]. cbn [filter].
    rewrite (K' a (or_introl eq_refl)). f_equal. apply IH. intros b Hb. apply K'. now right.
  Qed.
End Cut.

Lemma insert_sorted_perm z l : Permutation (insert_sorted z l) (z :: l).
Proof.
  induction l as [|a l IH]; cbn [insert_sorted]; [reflexivity|]. destruct (z <=? a); [reflexivity|].
  rewrite IH. apply perm_swap.
Qed.
Lemma mdlp_splits_perm l : Permutation (mdlp_splits l) l.
Proof. unfold mdlp_splits. induction l as [|a l IH]; cbn [fold_right]; [reflexivity|]. rewrite insert_sorted_perm. now constructor. Qed.
Lemma insert_sorted_sorted z l : nondecreasing l -> nondecreasing (insert_sorted z l).
Proof.
  unfold nondecreasing. induction l as [|a l IH]; intros H; cbn [insert_sorted]; [constructor; constructor|].
  inversion H as [|? ? Hl Ha]; subst. destruct (Z.leb_spec z a).
  - constructor; auto. constructor; [lia|]. eapply Forall_impl; [|exact Ha]. cbn; intros; lia.
  - constructor; auto. rewrite Forall_forall in *. intros x Hx. apply (Permutation_in _ (insert_sorted_perm z l)) in Hx.
    destruct Hx as [<-|Hx]; [lia|auto].
Qed.
Lemma mdlp_splits_sorted l : nondecreasing (mdlp_splits l).
Proof. unfold mdlp_splits. induction l as [|a l IH]; cbn [fold_right]; [constructor|]. now apply insert_sorted_sorted. Qed.
Lemma sorted_perm_unique a : forall b, nondecreasing a -> nondecreasing b -> Permutation a b -> a = b.
Proof.
  unfold nondecreasing. induction a as [|x a IH]; intros b Ha Hb P.
  - apply Permutation_nil in P. now subst.
  - destruct b as [|y b]; [symmetry in P; apply Permutation_nil in P; discriminate|].
    inversion Ha as [|? ? Ha' Hx]; subst. inversion Hb as [|? ? Hb' Hy]; subst. rewrite Forall_forall in *.
    assert (x = y).
    { assert (I1 : In x (y :: b)) by (eapply Permutation_in; [exact P|now left]).
      assert (I2 : In y (x :: a)) by (eapply Permutation_in; [symmetry; exact P|now left]).
      destruct I1 as [->|I1]; [reflexivity|]. destruct I2 as [->|I2]; [reflexivity|].
      specialize (Hx _ I2). specialize (Hy _ I1). lia. }
    subst y. f_equal. apply IH; auto. eapply Permutation_cons_inv; eauto.
Qed.
Lemma increasing_nondecreasing l : increasing l -> nondecreasing l.
Proof.
  unfold increasing, nondecreasing. induction 1 as [|a l Hl IH Ha]; constructor; auto.
  eapply Forall_impl; [|exact Ha]. cbn; intros; lia.
Qed.

Lemma candidates_pure mc d : (forall a b, In a d -> In b d -> snd a = snd b) -> candidates mc d = [].
Proof.
  intros H. unfold candidates. enough (E : changes d = []) by (rewrite E; reflexivity).
  induction d as [|a d IH]; [reflexivity|]. cbn [changes]. destruct d as [|b d]; [reflexivity|].
  rewrite (H a b) by (cbn; auto). rewrite Nat.eqb_refl. apply IH. intros; apply H; now right.
Qed.

(** the chosen split has the largest gain among the admissible candidates *)
Section Best.
  Context {G : Type} (zero : G) (gtb : G -> G -> bool) (gain : list nat -> list nat -> list nat -> G).
  Hypothesis irr : forall a, gtb a a = false.
  Hypothesis tr : forall a b c, gtb a b = true -> gtb b c = true -> gtb a c = true.
  Definition gain_at (mc : nat) (d : list xy) (s : Z) : G :=
    gain (map snd d) (map snd (firstn (ss_right mc d s) d)) (map snd (skipn (ss_right mc d s) d)).
  Definition admissible (mc leaf : nat) (d : list xy) (s : Z) : Prop :=
    (leaf <= ss_right mc d s)%nat /\ (leaf <= length d - ss_right mc d s)%nat.
  Lemma best_max mc leaf d : forall cs m b r, best_split gtb gain mc leaf d m b cs = r ->
    (r = b /\ forall c, In c cs -> admissible mc leaf d c -> gtb (gain_at mc d c) m = false) \/
    exists s, r = Some s /\ In s cs /\ admissible mc leaf d s /\ gtb (gain_at mc d s) m = true /\
              forall c, In c cs -> admissible mc leaf d c -> gtb (gain_at mc d c) (gain_at mc d s) = false.
  Proof.
    induction cs as [|c cs IH]; intros m b r H; cbn [best_split] in H.
    - left. split; [congruence|intros c []].
    - cbv zeta in H. fold (gain_at mc d c) in H.
      destruct ((leaf <=? ss_right mc d c)%nat && (leaf <=? length d - ss_right mc d c)%nat)%bool eqn:E.
      + apply andb_true_iff in E. destruct E as [E1 E2]. apply Nat.leb_le in E1, E2.
        destruct (gtb (gain_at mc d c) m) eqn:Gc.
        * right. apply IH in H. destruct H as [[-> H]|(s & -> & Hs & Ha & Hg & H)].
          -- exists c. repeat split; auto; [now left|]. intros c' [<-|Hc'] Ha'; auto.
          -- exists s. repeat split; try apply Ha; [now right| |].
             ++ exact (tr _ _ _ Hg Gc).
             ++ intros c' [<-|Hc'] Ha'; auto. destruct (gtb (gain_at mc d c) (gain_at mc d s)) eqn:K; [|reflexivity].
                pose proof (tr _ _ _ Hg K) as KK. rewrite irr in KK. discriminate.
        * apply IH in H. destruct H as [[-> H]|(s & -> & Hs & Ha & Hg & H)].
          -- left. split; [reflexivity|]. intros c' [<-|Hc'] Ha'; auto.
          -- right. exists s. repeat split; try apply Ha; auto; [now right|].
             intros c' [<-|Hc'] Ha'; auto. destruct (gtb (gain_at mc d c) (gain_at mc d s)) eqn:K; [|reflexivity].
             rewrite (tr _ _ _ K Hg) in Gc. discriminate.
      + assert (NA : ~ admissible mc leaf d c).
        { intros [A1 A2]. apply Nat.leb_le in A1, A2. rewrite A1, A2 in E. discriminate. }
        apply IH in H. destruct H as [[-> H]|(s & -> & Hs & Ha & Hg & H)].
        * left. split; [reflexivity|]. intros c' [<-|Hc'] Ha'; [contradiction|auto].
        * right. exists s. repeat split; try apply Ha; auto; [now right|]. intros c' [<-|Hc'] Ha'; [contradiction|auto].
  Qed.
End Best.

Lemma firstn_ss_filter mc d s : (1 <= mc)%nat -> sorted_by_x d ->
  firstn (ss_right mc d s) d = filter (fun a => unit mc * fst a <=? s) d.
Proof.
  intros Hmc. pose proof (unit_pos mc Hmc) as HU. induction d as [|b d IH]; intros Hs; cbn [ss_right filter]; [reflexivity|].
  inversion Hs as [|? ? Hd Hb]; subst. destruct (Z.leb_spec (unit mc * fst b) s).
  - cbn [firstn]. f_equal. auto.
  - cbn [firstn]. symmetry. clear IH Hd Hs. induction d as [|c d IH]; [reflexivity|]. cbn [filter].
    inversion Hb; subst. destruct (Z.leb_spec (unit mc * fst c) s); [nia|auto].
Qed.
Lemma skipn_ss_filter mc d s : (1 <= mc)%nat -> sorted_by_x d ->
  skipn (ss_right mc d s) d = filter (fun a => s <? unit mc * fst a) d.
Proof.
  intros Hmc. pose proof (unit_pos mc Hmc) as HU. induction d as [|b d IH]; intros Hs; cbn [ss_right filter]; [reflexivity|].
  inversion Hs as [|? ? Hd Hb]; subst. destruct (Z.leb_spec (unit mc * fst b) s); destruct (Z.ltb_spec s (unit mc * fst b)); try lia.
  - cbn [skipn]. auto.
  - cbn [skipn]. f_equal. symmetry. clear IH Hd Hs. induction d as [|c d IH]; [reflexivity|]. cbn [filter].
    inversion Hb; subst. destruct (Z.ltb_spec s (unit mc * fst c)); [f_equal; auto|nia].
Qed.
Lemma changes_nth d : forall i a b, nth_error d i = Some a -> nth_error d (S i) = Some b -> snd a <> snd b ->
  In (fst a + fst b) (changes d).
Proof.
  induction d as [|c d IH]; intros i a b Ha Hb Hn; [destruct i; discriminate|]. cbn [changes].
  destruct d as [|e d]; [destruct i; discriminate|]. destruct i as [|i].
  - cbn in Ha, Hb. injection Ha as ->. injection Hb as ->.
    destruct (Nat.eqb_spec (snd a) (snd b)); [contradiction|now left].
  - assert (I : In (fst a + fst b) (changes (e :: d))) by (eapply IH; eauto).
    destruct (snd c =? snd e)%nat; [exact I|now right].
Qed.
