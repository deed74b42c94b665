(** Invariants of the quantile sketch. *)
From Coq Require Import List ZArith Bool QArith Qround Lia Permutation Sorted.
From Verif Require Import Model.Arr Model.GK Spec.GKSpec Proofs.ArrP.
Import ListNotations.
Open Scope Z_scope.

Definition cap (thr : Q) : Z := Z.max 1 (Qfloor thr).
Definition le_cap (c : Z) (l : list entry) : Prop := Forall (fun e => eg e + ed e <= c) l.
Definition pos_g (l : list entry) : Prop := Forall (fun e => 1 <= eg e /\ 0 <= ed e) l.
Definition sorted_e (l : list entry) : Prop := StronglySorted (fun a b => ev a <= ev b) l.
Definition ones (l : list entry) : Prop := Forall (fun e => eg e = 1 /\ ed e = 0) l.

Lemma under_cap thr t tn : under thr t tn = true -> eg t + eg tn + ed tn <= Qfloor thr.
Proof.
  unfold under. rewrite Qle_bool_iff. intros H.
  rewrite <- (Qfloor_Z (eg t + eg tn + ed tn)). apply Qfloor_resp_le, H.
Qed.

(** ** sorting *)
Lemma insert_perm x l : Permutation (insert_e x l) (x :: l).
Proof.
  induction l as [|y r IH]; cbn [insert_e]; [reflexivity|].
  destruct (Z.leb _ _); [reflexivity|]. rewrite IH. apply perm_swap.
Qed.
Lemma sort_perm l : Permutation (sort_e l) l.
Proof. induction l as [|x r IH]; cbn [sort_e]; [reflexivity|]. rewrite insert_perm, IH. reflexivity. Qed.
Lemma insert_sorted x l : sorted_e l -> sorted_e (insert_e x l).
Proof.
  induction 1 as [|y r S IH F]; cbn [insert_e]; [repeat constructor|].
  destruct (Z.leb_spec (ev x) (ev y)) as [L|L].
  - constructor; [constructor; assumption|]. constructor; [assumption|].
    eapply Forall_impl; [|exact F]. cbn. intros. lia.
  - constructor; [exact IH|]. eapply Permutation_Forall; [symmetry; apply insert_perm|].
    constructor; [lia|assumption].
Qed.
Lemma sort_sorted l : sorted_e (sort_e l).
Proof. induction l as [|x r IH]; cbn [sort_e]; [constructor|]. now apply insert_sorted. Qed.

Lemma ones_sort l : ones l -> ones (sort_e l).
Proof. intros H. eapply Permutation_Forall; [symmetry; apply sort_perm|exact H]. Qed.

(** ** total weight *)
Definition gs (l : list entry) : Z := zsum (map eg l).
Lemma gs_cons e l : gs (e :: l) = eg e + gs l. Proof. reflexivity. Qed.
Lemma gs_bump k e l : gs (bump k e :: l) = k + gs (e :: l).
Proof. unfold gs, bump; cbn [map zsum eg]. lia. Qed.
Lemma gs_perm l l' : Permutation l l' -> gs l = gs l'.
Proof. induction 1; unfold gs in *; cbn [map zsum]; lia. Qed.
Lemma gs_ones l : ones l -> gs l = Z.of_nat (length l).
Proof. induction 1 as [|e r [H _] _ IH]; [reflexivity|]. rewrite gs_cons, IH. cbn [length]. lia. Qed.
Lemma gs_app a b : gs (a ++ b) = gs a + gs b.
Proof. induction a as [|e r IH]; [reflexivity|]. cbn [app]. rewrite !gs_cons, IH. lia. Qed.

Lemma mc_weight thr : forall fuel inc ents, (length inc + length ents < fuel)%nat ->
  gs (mc_loop fuel thr inc ents) = gs inc + gs ents.
Proof.
  induction fuel as [|f IH]; intros inc ents L; [lia|]. cbn [mc_loop].
  destruct inc as [|ti ri], ents as [|tj rj].
  - reflexivity.
  - destruct rj as [|tn r'].
    + rewrite gs_cons, IH by (cbn [length] in *; lia). reflexivity.
    + destruct (under thr tj tn).
      * rewrite IH by (cbn [length] in *; lia). rewrite gs_bump, !gs_cons. unfold gs; cbn [map zsum]; lia.
      * rewrite gs_cons, IH by (cbn [length] in *; lia). rewrite !gs_cons. unfold gs; cbn [map zsum]; lia.
  - destruct ri as [|tn r'].
    + rewrite gs_cons, IH by (cbn [length] in *; lia). rewrite !gs_cons; unfold gs; cbn [map zsum]; lia.
    + destruct (under thr ti tn).
      * rewrite IH by (cbn [length] in *; lia). rewrite gs_bump, !gs_cons. unfold gs; cbn [map zsum]; lia.
      * rewrite gs_cons, IH by (cbn [length] in *; lia). rewrite !gs_cons. unfold gs; cbn [map zsum]; lia.
  - destruct (Z.ltb _ _).
    + destruct (under thr ti tj).
      * rewrite IH by (cbn [length] in *; lia). rewrite gs_bump, !gs_cons. lia.
      * rewrite gs_cons, IH by (cbn [length] in *; lia). rewrite !gs_cons; cbn [eg]. lia.
    + destruct rj as [|tn r'].
      * rewrite gs_cons, IH by (cbn [length] in *; lia). rewrite !gs_cons; unfold gs; cbn [map zsum]; lia.
      * destruct (under thr tj tn).
        -- rewrite IH by (cbn [length] in *; lia). rewrite gs_bump, !gs_cons. lia.
        -- rewrite gs_cons, IH by (cbn [length] in *; lia). rewrite !gs_cons. lia.
Qed.

(** ** the sum of g + delta stays under the cap; weights stay positive. [incoming] values may carry any
    weight (merge), but then delta may become negative; for plain values see [mc_pos]. *)
Lemma mc_cap thr c : Qfloor thr <= c -> forall fuel inc ents, le_cap c inc -> le_cap c ents ->
  le_cap c (mc_loop fuel thr inc ents).
Proof.
  intros C. assert (B : forall k e t, eg t = k -> under thr t e = true -> eg (bump k e) + ed (bump k e) <= c).
  { intros k e t <- U. apply under_cap in U. cbn [bump eg ed]. lia. }
  unfold le_cap. induction fuel as [|f IH]; intros inc ents Hi He; [constructor|]. cbn [mc_loop].
  destruct inc as [|ti ri], ents as [|tj rj].
  - constructor.
  - inversion He as [|? ? H1 H2]; subst. destruct rj as [|tn r'].
    + constructor; [assumption|]. apply IH; constructor.
    + destruct (under thr tj tn) eqn:U.
      * apply IH; [constructor|]. inversion H2; subst. constructor; [eapply B; eauto|assumption].
      * constructor; [assumption|]. apply IH; [constructor|assumption].
  - inversion Hi as [|? ? H1 H2]; subst. destruct ri as [|tn r'].
    + constructor; [assumption|]. apply IH; constructor.
    + destruct (under thr ti tn) eqn:U.
      * apply IH; [|constructor]. inversion H2; subst. constructor; [eapply B; eauto|assumption].
      * constructor; [assumption|]. apply IH; [assumption|constructor].
  - inversion Hi as [|? ? H1 H2]; subst. inversion He as [|? ? H3 H4]; subst.
    destruct (Z.ltb _ _).
    + destruct (under thr ti tj) eqn:U.
      * apply IH; [assumption|]. constructor; [eapply B; eauto|assumption].
      * constructor; [cbn [eg ed]; lia|]. apply IH; assumption.
    + destruct rj as [|tn r'].
      * constructor; [assumption|]. apply IH; [assumption|constructor].
      * destruct (under thr tj tn) eqn:U.
        -- apply IH; [assumption|]. inversion H4; subst. constructor; [eapply B; eauto|assumption].
        -- constructor; [assumption|]. apply IH; assumption.
Qed.

(** weights stay positive whatever the incoming weights *)
Definition gpos (l : list entry) : Prop := Forall (fun e => 1 <= eg e) l.
Lemma mc_gpos thr : forall fuel inc ents, gpos inc -> gpos ents -> gpos (mc_loop fuel thr inc ents).
Proof.
  unfold gpos. induction fuel as [|f IH]; intros inc ents Hi He; [constructor|]. cbn [mc_loop].
  destruct inc as [|ti ri], ents as [|tj rj].
  - constructor.
  - inversion He as [|? ? H1 H2]; subst. destruct rj as [|tn r'].
    + constructor; [assumption|]. apply IH; constructor.
    + destruct (under thr tj tn) eqn:U.
      * apply IH; [constructor|]. inversion H2; subst. constructor; [cbn [bump eg]; lia|assumption].
      * constructor; [assumption|]. apply IH; [constructor|assumption].
  - inversion Hi as [|? ? H1 H2]; subst. destruct ri as [|tn r'].
    + constructor; [assumption|]. apply IH; constructor.
    + destruct (under thr ti tn) eqn:U.
      * apply IH; [|constructor]. inversion H2; subst. constructor; [cbn [bump eg]; lia|assumption].
      * constructor; [assumption|]. apply IH; [assumption|constructor].
  - inversion Hi as [|? ? H1 H2]; subst. inversion He as [|? ? H3 H4]; subst.
    destruct (Z.ltb _ _).
    + destruct (under thr ti tj) eqn:U.
      * apply IH; [assumption|]. constructor; [cbn [bump eg]; lia|assumption].
      * constructor; [cbn [eg ed]; lia|]. apply IH; assumption.
    + destruct rj as [|tn r'].
      * constructor; [assumption|]. apply IH; [assumption|constructor].
      * destruct (under thr tj tn) eqn:U.
        -- apply IH; [assumption|]. inversion H4; subst. constructor; [cbn [bump eg]; lia|assumption].
        -- constructor; [assumption|]. apply IH; assumption.
Qed.

(** ** values of the output: every value comes from the input *)
Lemma mc_vals thr : forall fuel inc ents e, In e (mc_loop fuel thr inc ents) ->
  In (ev e) (map ev inc) \/ In (ev e) (map ev ents).
Proof.
  induction fuel as [|f IH]; intros inc ents e I; [destruct I|]. cbn [mc_loop] in I.
  destruct inc as [|ti ri], ents as [|tj rj].
  - destruct I.
  - destruct rj as [|tn r'].
    + destruct I as [<-|I]; [right; left; reflexivity|]. apply IH in I. tauto.
    + destruct (under thr tj tn).
      * apply IH in I. destruct I as [I|I]; [tauto|]. right. cbn [map bump ev] in *. cbn [In] in *; tauto.
      * destruct I as [<-|I]; [right; left; reflexivity|]. apply IH in I. cbn [map In] in *. tauto.
  - destruct ri as [|tn r'].
    + destruct I as [<-|I]; [left; left; reflexivity|]. apply IH in I. cbn [map In] in *; tauto.
    + destruct (under thr ti tn).
      * apply IH in I. destruct I as [I|I]; [|tauto]. left. cbn [map bump ev] in *. cbn [In] in *; tauto.
      * destruct I as [<-|I]; [left; left; reflexivity|]. apply IH in I. cbn [map In] in *. tauto.
  - destruct (Z.ltb _ _).
    + destruct (under thr ti tj).
      * apply IH in I. cbn [map bump ev In] in *. tauto.
      * destruct I as [<-|I]; [left; left; reflexivity|]. apply IH in I. cbn [map In] in *. tauto.
    + destruct rj as [|tn r'].
      * destruct I as [<-|I]; [right; left; reflexivity|]. apply IH in I. cbn [map In] in *; tauto.
      * destruct (under thr tj tn).
        -- apply IH in I. cbn [map bump ev In] in *. tauto.
        -- destruct I as [<-|I]; [right; left; reflexivity|]. apply IH in I. cbn [map In] in *. tauto.
Qed.

Lemma sorted_bump k e l : sorted_e (e :: l) -> sorted_e (bump k e :: l).
Proof. intros H; inversion H; subst. constructor; assumption. Qed.
Lemma sorted_tl e l : sorted_e (e :: l) -> sorted_e l.
Proof. intros H; inversion H; assumption. Qed.
Lemma sorted_hd e l : sorted_e (e :: l) -> Forall (fun x => ev e <= ev x) l.
Proof. intros H; inversion H; assumption. Qed.

Lemma mc_sorted thr : forall fuel inc ents, sorted_e inc -> sorted_e ents -> sorted_e (mc_loop fuel thr inc ents).
Proof.
  assert (K : forall fuel inc ents (v : Z), Forall (fun x => v <= ev x) inc -> Forall (fun x => v <= ev x) ents ->
    Forall (fun x => v <= ev x) (mc_loop fuel thr inc ents)).
  { intros fuel inc ents v A B. apply Forall_forall. intros e I. apply mc_vals in I.
    rewrite Forall_forall in A, B. destruct I as [I|I]; apply in_map_iff in I; destruct I as (x & <- & I); auto. }
  induction fuel as [|f IH]; intros inc ents Hi He; [constructor|]. cbn [mc_loop].
  destruct inc as [|ti ri], ents as [|tj rj].
  - constructor.
  - pose proof (sorted_tl _ _ He) as T. pose proof (sorted_hd _ _ He) as D. destruct rj as [|tn r'].
    + constructor; [apply IH; constructor|apply K; constructor].
    + destruct (under thr tj tn) eqn:U.
      * apply IH; [constructor|]. now apply sorted_bump.
      * constructor; [apply IH; [constructor|assumption]|]. apply K; [constructor|assumption].
  - pose proof (sorted_tl _ _ Hi) as T. pose proof (sorted_hd _ _ Hi) as D. destruct ri as [|tn r'].
    + constructor; [apply IH; constructor|apply K; constructor].
    + destruct (under thr ti tn) eqn:U.
      * apply IH; [|constructor]. now apply sorted_bump.
      * constructor; [apply IH; [assumption|constructor]|]. apply K; [assumption|constructor].
  - pose proof (sorted_tl _ _ Hi) as T. pose proof (sorted_hd _ _ Hi) as D.
    pose proof (sorted_tl _ _ He) as T'. pose proof (sorted_hd _ _ He) as D'.
    destruct (Z.ltb_spec (ev ti) (ev tj)) as [L|L].
    + destruct (under thr ti tj) eqn:U.
      * apply IH; [assumption|]. now apply sorted_bump.
      * constructor; [apply IH; assumption|]. apply K; cbn [ev]; [assumption|].
        constructor; [lia|]. eapply Forall_impl; [|exact D']. cbn; intros; lia.
    + assert (J : Forall (fun x => ev tj <= ev x) (ti :: ri)).
      { constructor; [lia|]. eapply Forall_impl; [|exact D]. cbn; intros; lia. }
      destruct rj as [|tn r'].
      * constructor; [apply IH; [assumption|constructor]|]. apply K; [assumption|constructor].
      * destruct (under thr tj tn) eqn:U.
        -- apply IH; [assumption|]. now apply sorted_bump.
        -- constructor; [apply IH; assumption|]. apply K; assumption.
Qed.
