From Coq Require Import List ZArith Reals Bool Arith Lia.
From Verif Require Import Model.Arr Model.Core Model.Multi Model.MultiT Model.Lifecycle Model.MultiLife
  Spec.CoreSpec Spec.MultiSpec Spec.MultiLifeSpec Proofs.ArrP Proofs.CoreP Proofs.LifeP Proofs.LifeR Proofs.MultiP.
Import ListNotations.
Open Scope Z_scope.

(** ** How far a fit gets, as a function of the data and the user splits only; attribute nref counts from 0 *)
Inductive mstop :=
| MNoStart (k : exn)
| MEarly (a : mattr) (cl : list Z) (k : exn)
| MLate (a : mattr) (cl : list Z) (status : Z) (so : list Z) (k : exn)
| MDone (a : mattr) (cl : list Z) (status : Z) (so : list Z) (c : list (list Z)).
Definition madd (n : nat) (a : mattr) : mattr := mkMA (ma_user a) (ma_fixed a) (n + ma_nref a).
Definition mafter (e : menv) (o : mobj) (s : mstop) : mobj * res unit :=
  match s with
  | MNoStart k => (o, Err k)
  | MEarly a cl k => (m_set_attr o (madd (mo_nref o) a) (Some cl), Err k)
  | MLate a cl st so k => (m_set_result (m_set_attr o (madd (mo_nref o) a) (Some cl)) st so, Err k)
  | MDone a cl st so c => (mkMO (ma_user a) (ma_fixed a) (mo_nref o + ma_nref a) (Some cl) (Some st) (Some so) (Some c)
                                (Some (mkMT (me_special e) (me_special_c e) so c cl)) true, Ok tt)
  end.
Definition m_finish_stop (e : menv) (rs : list mrec) (a : mattr) (cl splits : list Z) (cols : list (list Z * list Z))
    (sol : list bool) (st : Z) (so : list Z) : mstop :=
  match m_post e rs cl splits cols sol with Err k => MLate a cl st so k | Ok c => MDone a cl st so c end.
Definition m_refine_stop (e : menv) (rs : list mrec) (user : muser) (fixed : mfixed) (splits0 : list Z) : mstop :=
  let clean := m_clean_data e rs in
  let cl := m_classes_of clean in
  if (100 <? length cl)%nat then MEarly (mkMA user fixed 0) cl ValueError else
  match mprebins_st (S (length splits0)) cl clean (mkMA user fixed 0) splits0 with
  | None => MEarly (mkMA user fixed 0) cl OtherError
  | Some (a, Err k) => MEarly a cl k
  | Some (a, Ok (splits, cols)) =>
      match splits with
      | [] => m_finish_stop e rs a cl [] cols [] 0 []
      | _ => match me_solver e (option_map snd (ma_fixed a)) (length rs) cols with
             | Err k => MEarly a cl k
             | Ok (status, sol) => m_finish_stop e rs a cl splits cols sol status (select (init sol) splits)
             end
      end
  end.
Definition m_fit_stop (e : menv) (rs : list mrec) (user : muser) (fixed : mfixed) : mstop :=
  if negb (mparams_ok user fixed) then MNoStart ValueError else
  match user with
  | Some (_, []) => MNoStart ValueError
  | Some (_, u) => if negb (distinct u) then MNoStart ValueError
                   else m_refine_stop e rs user (option_map (fun p => (true, permuted u (snd p))) fixed) (sorted_splits u)
  | None => match me_prebin e (m_clean_data e rs) with
            | Err k => MNoStart k
            | Ok splits0 => m_refine_stop e rs user fixed splits0
            end
  end.

Lemma mprebins_shift fuel cl data : forall u f n a s,
  a = madd n (mkMA u f 0) ->
  forall m b, b = madd m (mkMA u f 0) ->
  match mprebins_st fuel cl data a s, mprebins_st fuel cl data b s with
  | None, None => True
  | Some (a', r), Some (b', r') => r = r' /\ ma_user a' = ma_user b' /\ ma_fixed a' = ma_fixed b' /\
      (ma_nref a' + m = ma_nref b' + n)%nat
  | _, _ => False
  end.
Proof.
  induction fuel as [|fuel IH]; intros u f n a s Ha m b Hb; [exact I|]. cbn [mprebins_st].
  subst a b. unfold madd. cbn [ma_user ma_fixed ma_nref].
  destruct s as [|z s]; [cbn; repeat split; lia|]. destruct (any (remove_mask_m _ _)); [|cbn; repeat split; lia].
  destruct f as [[np f]|].
  - destruct (any (mand f _)); [cbn; repeat split; lia|].
    specialize (IH (option_map (fun cu => (NdArray, select (mnot (mask_splits (remove_mask_m (S (length (z :: s))) (class_cols (z :: s) cl data)))) (snd cu))) u)
      (Some (true, select (mnot (mask_splits (remove_mask_m (S (length (z :: s))) (class_cols (z :: s) cl data)))) f)) (S n) _
      (select (mnot (mask_splits (remove_mask_m (S (length (z :: s))) (class_cols (z :: s) cl data)))) (z :: s)) eq_refl (S m) _ eq_refl).
    unfold madd in IH. cbn [ma_user ma_fixed ma_nref] in IH.
    replace (S (n + 0)) with (S n + 0)%nat by lia. replace (S (m + 0)) with (S m + 0)%nat by lia.
    destruct (mprebins_st fuel _ _ (mkMA _ _ (S n + 0)) _) as [[a' r]|], (mprebins_st fuel _ _ (mkMA _ _ (S m + 0)) _) as [[b' r']|]; try exact IH.
    destruct IH as (A & B & C & D). repeat split; try assumption. lia.
  - specialize (IH u None (S n) _ (select (mnot (mask_splits (remove_mask_m (S (length (z :: s))) (class_cols (z :: s) cl data)))) (z :: s)) eq_refl (S m) _ eq_refl).
    unfold madd in IH. cbn [ma_user ma_fixed ma_nref] in IH.
    replace (S (n + 0)) with (S n + 0)%nat by lia. replace (S (m + 0)) with (S m + 0)%nat by lia.
    destruct (mprebins_st fuel _ _ (mkMA _ _ (S n + 0)) _) as [[a' r]|], (mprebins_st fuel _ _ (mkMA _ _ (S m + 0)) _) as [[b' r']|]; try exact IH.
    destruct IH as (A & B & C & D). repeat split; try assumption. lia.
Qed.
Lemma mprebins_nref fuel cl data u f n s :
  mprebins_st fuel cl data (mkMA u f n) s =
  option_map (fun ar => (madd n (fst ar), snd ar)) (mprebins_st fuel cl data (mkMA u f 0) s).
Proof.
  pose proof (mprebins_shift fuel cl data u f n (mkMA u f n) s) as H. unfold madd in H. cbn [ma_user ma_fixed ma_nref] in H.
  rewrite Nat.add_0_r in H. specialize (H eq_refl 0%nat (mkMA u f 0) eq_refl).
  destruct (mprebins_st fuel cl data (mkMA u f n) s) as [[a r]|], (mprebins_st fuel cl data (mkMA u f 0) s) as [[b r']|];
    try contradiction; [|reflexivity]. destruct H as (A & B & C & D). cbn [option_map fst snd]. unfold madd. subst r'.
  destruct a, b; cbn in *; subst. do 2 f_equal. f_equal. lia.
Qed.
Lemma m_finish_after e rs o a cl splits cols sol st so :
  m_finish e rs (m_set_result (m_set_attr o (madd (mo_nref o) a) (Some cl)) st so) cl splits cols sol so
  = mafter e o (m_finish_stop e rs a cl splits cols sol st so).
Proof. unfold m_finish, m_finish_stop. destruct (m_post _ _ _ _ _ _); reflexivity. Qed.
Lemma m_refine_after e rs o s0 :
  m_refine_and_optimise e rs o s0 = mafter e o (m_refine_stop e rs (mo_user o) (mo_fixed o) s0).
Proof.
  unfold m_refine_and_optimise, m_refine_stop. cbv zeta.
  set (cl := m_classes_of (m_clean_data e rs)).
  cbn [m_set_attr mo_user mo_fixed mo_nref mo_classes ma_user ma_fixed ma_nref].
  destruct (100 <? length cl)%nat.
  { unfold mafter, m_set_attr, madd. cbn. rewrite Nat.add_0_r. destruct o; reflexivity. }
  rewrite (mprebins_nref _ _ _ _ _ (mo_nref o)).
  destruct (mprebins_st _ _ _ (mkMA (mo_user o) (mo_fixed o) 0) _) as [[a [[splits cols]|k]]|]; cbn [option_map fst snd].
  - destruct splits as [|z splits].
    + rewrite <- m_finish_after. reflexivity.
    + change (ma_fixed (madd (mo_nref o) a)) with (ma_fixed a).
      destruct (me_solver e (option_map snd (ma_fixed a)) (length rs) cols) as [[status sol]|k].
      * rewrite <- m_finish_after. reflexivity.
      * reflexivity.
  - reflexivity.
  - unfold mafter, m_set_attr, madd. cbn. rewrite Nat.add_0_r. destruct o; reflexivity.
Qed.
Lemma m_refine_stop_late e rs u f s : match m_refine_stop e rs u f s with MNoStart _ => False | _ => True end.
Proof.
  unfold m_refine_stop. cbv zeta. destruct (_ <? _)%nat; [exact I|]. destruct (mprebins_st _ _ _ _ _) as [[a [[sp cols]|k]]|]; try exact I.
  destruct sp; [unfold m_finish_stop; destruct (m_post _ _ _ _ _ _); exact I|].
  destruct (me_solver _ _ _ _) as [[st sol]|k]; [unfold m_finish_stop; destruct (m_post _ _ _ _ _ _); exact I|exact I].
Qed.
Lemma mfit_after e rs o : mfit e rs o = mafter e o (m_fit_stop e rs (mo_user o) (mo_fixed o)).
Proof.
  unfold mfit, m_fit_stop. destruct (negb (mparams_ok _ _)); [reflexivity|].
  destruct (mo_user o) as [[c [|z u]]|] eqn:U; [reflexivity| |].
  - destruct (negb (distinct (z :: u))); [reflexivity|]. rewrite m_refine_after. cbn [mo_user mo_fixed].
    pose proof (m_refine_stop_late e rs (Some (c, z :: u)) (option_map (fun p => (true, permuted (z :: u) (snd p))) (mo_fixed o)) (sorted_splits (z :: u))) as L.
    destruct (m_refine_stop _ _ _ _ _); [contradiction|reflexivity|reflexivity|reflexivity].
  - destruct (me_prebin e _); [|reflexivity]. rewrite m_refine_after, U. reflexivity.
Qed.

(** ** Fitted flag *)
Lemma mfit_fitted e rs o o' r : mfit e rs o = (o', r) ->
  (r = Ok tt /\ mo_fitted o' = true) \/ (r <> Ok tt /\ mo_fitted o' = mo_fitted o).
Proof.
  rewrite mfit_after. destruct (m_fit_stop _ _ _ _); cbn [mafter]; intros H; injection H as <- <-;
    [right|right|right|left]; split; try reflexivity; discriminate.
Qed.
Lemma mread_fitted o fs p o' r : mread_json o fs p = (o', r) -> mo_fitted o' = true.
Proof. unfold mread_json. destruct (fs p) as [[]|]; intros H; injection H as <- <-; reflexivity. Qed.
Lemma mstep_fitted e w c w' v : mstep e w c = (w', v) ->
  (mo_fitted (fst w') = true <-> mo_fitted (fst w) = true \/ mc_is_read c \/ (mc_is_fit c /\ exists a, v = Ok a)).
Proof.
  destruct w as [o fs]. destruct c; cbn [mstep]; intros H; cbn [fst];
  try (injection H as <- <-; cbn [fst mo_fitted]; split; [intros K; left; exact K|intros [K|[[? K]|[[? K] _]]]; [exact K|discriminate K|discriminate K]]).
  - destruct (mfit e rs o) as [o' q] eqn:F. injection H as <- <-. cbn [fst].
    destruct (mfit_fitted _ _ _ _ _ F) as [[-> T]|[N T]]; rewrite T.
    + split; [|reflexivity]. intros _. right. right. split; [exists rs; reflexivity|eexists; reflexivity].
    + split; [intros K; left; exact K|]. intros [K|[[? K]|[_ [v K]]]]; [exact K|discriminate K|].
      destruct q as [[]|k]; [contradiction N; reflexivity|discriminate K].
  - destruct (mto_json o fs p) as [fs' q]. injection H as <- <-. cbn [fst].
    split; [intros K; left; exact K|intros [K|[[? K]|[[? K] _]]]; [exact K|discriminate K|discriminate K]].
  - destruct (mread_json o fs p) as [o' q] eqn:F. apply mread_fitted in F. injection H as <- <-. cbn [fst].
    split; [|intros _; exact F]. intros _. right. left. exists p. reflexivity.
Qed.
Lemma mexec_cons e w c h w' outs : mexec e w (c :: h) = (w', outs) ->
  exists w1 v l, mstep e w c = (w1, v) /\ mexec e w1 h = (w', l) /\ outs = v :: l.
Proof.
  cbn [mexec]. destruct (mstep e w c) as [w1 v]. destruct (mexec e w1 h) as [w2 l] eqn:E. intros H.
  injection H as <- <-. exists w1, v, l. repeat split; assumption || reflexivity.
Qed.
Lemma mc_succeeded_cons P c h v l : mc_succeeded P (c :: h) (v :: l) <-> (P c /\ exists a, v = Ok a) \/ mc_succeeded P h l.
Proof.
  split.
  - intros (i & c' & a & H & Pc & O). destruct i as [|i]; cbn in H, O.
    + injection H as ->. injection O as ->. left. split; [exact Pc|exists a; reflexivity].
    + right. exists i, c', a. repeat split; assumption.
  - intros [[Pc [a ->]]|(i & c' & a & H & Pc & O)].
    + exists 0%nat, c, a. repeat split; assumption || reflexivity.
    + exists (S i), c', a. repeat split; assumption.
Qed.
Lemma mc_called_cons (P : mop -> Prop) c h : mc_called P (c :: h) <-> P c \/ mc_called P h.
Proof.
  split.
  - intros (x & [->|I] & Px); [left; exact Px|right; exists x; split; assumption].
  - intros [Pc|(x & I & Px)]; [exists c; split; [left; reflexivity|exact Pc]|exists x; split; [right; exact I|exact Px]].
Qed.
Lemma mexec_fitted e h : forall w w' outs, mexec e w h = (w', outs) ->
  (mo_fitted (fst w') = true <-> mo_fitted (fst w) = true \/ mc_succeeded mc_is_fit h outs \/ mc_called mc_is_read h).
Proof.
  induction h as [|c h IH]; intros w w' outs H.
  - injection H as <- <-. split; [tauto|]. intros [K|[(i & c & a & K & _)|(c & [] & _)]]; [exact K|destruct i; discriminate].
  - apply mexec_cons in H. destruct H as (w1 & v & l & S & E & ->).
    rewrite (IH _ _ _ E), (mstep_fitted _ _ _ _ _ S), mc_succeeded_cons, mc_called_cons. tauto.
Qed.
Lemma mtransform_not_fitted e o m ms mm xs : mtransform e o m ms mm xs = Err NotFitted <-> mo_fitted o = false.
Proof.
  unfold mtransform. destruct (mo_fitted o); cbn [negb]; [|tauto].
  split; [|discriminate]. intros H. exfalso.
  destruct (mo_splits o) as [s|]; [|discriminate]. destruct (mo_cols o) as [cols|]; [|discriminate].
  apply all_res_err in H. apply in_map_iff in H. destruct H as (x & K & _).
  assert (Q : idx_like (transform1_num s (me_special e) MValue ms mm (map (mt_value m cols) (seq 0 (mt_rows cols))) 0%R x)) by apply transform1_idx.
  rewrite K in Q. discriminate Q.
Qed.
Lemma mc_needs_fit_not_fitted e w c : mc_needs_fit c -> (snd (mstep e w c) = Err NotFitted <-> mo_fitted (fst w) = false).
Proof.
  destruct w as [o fs]. cbn [fst]. destruct c; cbn [mc_needs_fit]; intros N; try contradiction; cbn [mstep snd]; unfold guarded;
    try (destruct (mo_fitted o); cbn [negb]; split; congruence).
  - rewrite <- (mtransform_not_fitted e o m ms mm xs). destruct (mtransform e o m ms mm xs); split; congruence.
  - unfold mto_json. destruct (mo_fitted o); cbn [negb]; [|split; reflexivity].
    split; [|discriminate]. destruct (mo_table o) as [t|]; [|discriminate].
    destruct (mt_special t), (mt_special_c t); discriminate.
Qed.
Lemma mc_not_fitted_iff e user fixed fs h w outs c :
  mexec e (mnew user fixed, fs) h = (w, outs) -> mc_needs_fit c ->
  (snd (mstep e w c) = Err NotFitted <-> ~ mc_succeeded mc_is_fit h outs /\ ~ mc_called mc_is_read h).
Proof.
  intros H N. rewrite (mc_needs_fit_not_fitted e w c N). pose proof (mexec_fitted _ _ _ _ _ H) as F. cbn [fst mnew mo_fitted] in F.
  destruct (mo_fitted (fst w)).
  - split; [discriminate|]. intros [A B]. destruct F as [F _]. destruct (F eq_refl) as [K|[K|K]]; [discriminate|tauto|tauto].
  - split; [|reflexivity]. intros _. destruct F as [_ F]. split; intros K; discriminate F; tauto.
Qed.

(** ** Objects that differ only in the refinement count *)
Definition msim (a b : mobj) : Prop :=
  mo_user a = mo_user b /\ mo_fixed a = mo_fixed b /\ mo_classes a = mo_classes b /\ mo_status a = mo_status b /\
  mo_splits a = mo_splits b /\ mo_cols a = mo_cols b /\ mo_table a = mo_table b /\ mo_fitted a = mo_fitted b.
Lemma mafter_sim e a b s : msim a b -> msim (fst (mafter e a s)) (fst (mafter e b s)) /\ snd (mafter e a s) = snd (mafter e b s).
Proof.
  intros (A & B & C & D & E & F & G & H). destruct s; cbn [mafter fst snd]; split; try reflexivity; unfold msim; cbn; repeat split; congruence.
Qed.
Lemma mstep_sim e a b fs c : msim a b -> c <> MInformation ->
  snd (mstep e (a, fs) c) = snd (mstep e (b, fs) c) /\ snd (fst (mstep e (a, fs) c)) = snd (fst (mstep e (b, fs) c)) /\
  msim (fst (fst (mstep e (a, fs) c))) (fst (fst (mstep e (b, fs) c))).
Proof.
  intros S NI. pose proof S as (A & B & C & D & E & F & G & H). destruct c; cbn [mstep fst snd].
  - rewrite !mfit_after, A, B. destruct (mafter_sim e a b (m_fit_stop e rs (mo_user b) (mo_fixed b)) S) as [X Y].
    destruct (mafter e a _), (mafter e b _). cbn [fst snd] in *. subst. auto.
  - unfold mtransform. rewrite E, F, H. auto.
  - unfold guarded. rewrite E, H. auto.
  - unfold guarded. rewrite D, H. auto.
  - unfold guarded. rewrite C, H. auto.
  - unfold guarded. rewrite G, H. auto.
  - contradiction NI; reflexivity.
  - unfold mto_json. rewrite G, H. destruct (negb (mo_fitted b)); [auto|]. destruct (mo_table b) as [t|]; [|auto].
    destruct (mt_special t), (mt_special_c t); auto.
  - unfold mread_json. destruct (fs p) as [[j|]|]; cbn [fst snd]; repeat split; cbn; assumption || reflexivity.
  - cbn [fst snd]. repeat split; cbn; assumption || reflexivity.
Qed.
Lemma mexec_sim e h : forall a b fs, msim a b -> ~ In MInformation h -> snd (mexec e (a, fs) h) = snd (mexec e (b, fs) h).
Proof.
  induction h as [|c h IH]; intros a b fs S N; [reflexivity|]. cbn [mexec].
  destruct (mstep_sim e a b fs c S) as (X & Y & Z). { intros ->. apply N. left. reflexivity. }
  destruct (mstep e (a, fs) c) as [[a' fa] va], (mstep e (b, fs) c) as [[b' fb] vb]. cbn [fst snd] in X, Y, Z. subst.
  specialize (IH a' b' fb Z ltac:(intros K; apply N; right; exact K)).
  destruct (mexec e (a', fb) h), (mexec e (b', fb) h). cbn [snd] in *. now subst.
Qed.

(** ** Without fixed splits the attributes stay *)
Lemma mprebins_none fuel cl data : forall u n s a r, mprebins_st fuel cl data (mkMA u None n) s = Some (a, r) ->
  ma_user a = u /\ ma_fixed a = None.
Proof.
  induction fuel as [|fuel IH]; intros u n s a r H; [discriminate|]. cbn [mprebins_st ma_user ma_fixed ma_nref] in H.
  destruct s as [|z s]; [injection H as <- <-; split; reflexivity|].
  destruct (any _); [|injection H as <- <-; split; reflexivity]. exact (IH _ _ _ _ _ H).
Qed.
Lemma m_refit e o rs o1 r1 o2 r2 : mo_fixed o = None ->
  mfit e rs o = (o1, r1) -> mfit e rs (mnew (mo_user o) None) = (o2, r2) ->
  r1 = r2 /\ (r1 = Ok tt -> msim o1 o2) /\ mo_nref o1 = (mo_nref o + mo_nref o2)%nat.
Proof.
  intros FX. rewrite !mfit_after, FX. cbn [mnew mo_user mo_fixed].
  destruct (m_fit_stop e rs (mo_user o) None); cbn [mafter]; intros H1 H2; injection H1 as <- <-; injection H2 as <- <-;
    (split; [reflexivity|]); (split; [intros K; try discriminate K; repeat split|]); cbn; lia.
Qed.

(** ** A successful fit is a run of [fit_multi] *)
Definition msolver (e : menv) (fx : option (list bool)) (m : nat) (cols : list (list Z * list Z)) : list bool :=
  match me_solver e fx m cols with
  | Ok (_, sol) => sol
  | Err _ => repeat true (match cols with [] => 0 | c :: _ => length (fst c) end)
  end.
Lemma msolver_ok e fx m : mc_answers_fit e -> m_solver_ok (msolver e fx m).
Proof.
  intros A cols n N NE L. unfold msolver. destruct (me_solver e fx m cols) as [[st sol]|k] eqn:E; [exact (A _ _ _ _ _ _ E N NE L)|].
  destruct cols as [|c cols]; [contradiction NE; reflexivity|]. rewrite repeat_length. destruct (L c (or_introl eq_refl)) as [Lc _].
  split; [exact Lc|]. rewrite Lc. destruct n as [|n]; [lia|]. clear. induction n as [|n IH]; [reflexivity|]. cbn [repeat last] in *. exact IH.
Qed.
Lemma mprebins_is fuel cl data : forall a s,
  compute_prebins_m fuel cl data (option_map snd (ma_fixed a)) (option_map snd (ma_user a)) (ma_nref a) s =
  option_map (fun ar => match snd ar with
    | Err k => Err k
    | Ok (sp, cols) => Ok {| mp_splits := sp; mp_cols := cols; mp_fixed := option_map snd (ma_fixed (fst ar));
                             mp_user := option_map snd (ma_user (fst ar)); mp_nref := ma_nref (fst ar) |}
    end) (mprebins_st fuel cl data a s).
Proof.
  induction fuel as [|fuel IH]; intros a s; [reflexivity|]. cbn [compute_prebins_m mprebins_st].
  destruct s as [|z s]; [reflexivity|]. destruct (any (remove_mask_m _ _)); [|reflexivity].
  destruct (ma_fixed a) as [[np f]|] eqn:E; cbn [option_map snd].
  - destruct (any (mand f _)); [reflexivity|].
    rewrite <- IH. cbn [ma_user ma_fixed ma_nref option_map snd]. destruct (ma_user a); reflexivity.
  - rewrite <- IH. cbn [ma_user ma_fixed ma_nref option_map]. reflexivity.
Qed.
Lemma m_refine_linked e rs user fixed s0 a cl st so c : m_refine_stop e rs user fixed s0 = MDone a cl st so c ->
  exists fx m f, fit_multi (msolver e fx m) (me_special e) (option_map snd fixed) (option_map snd user) s0 rs = Some (Ok f) /\
    mf_splits f = so /\ mf_cols f = c /\ mf_classes f = cl.
Proof.
  unfold m_refine_stop. cbv zeta. intros H.
  destruct (100 <? length (m_classes_of (m_clean_data e rs)))%nat eqn:E100; [discriminate|].
  pose proof (mprebins_is (S (length s0)) (m_classes_of (m_clean_data e rs)) (m_clean_data e rs) (mkMA user fixed 0) s0) as PB.
  cbn [ma_user ma_fixed ma_nref] in PB.
  destruct (mprebins_st _ _ _ _ _) as [[a' [[sp cols]|k]]|]; [|discriminate|discriminate]. cbn [option_map fst snd] in PB.
  exists (option_map snd (ma_fixed a')), (length rs).
  unfold fit_multi. fold (m_clean_data e rs). fold (m_classes_of (m_clean_data e rs)). rewrite E100, PB. cbn [mp_splits mp_cols].
  destruct sp as [|z sp].
  - unfold m_finish_stop, m_post in H. cbv zeta.
    destruct (special_nonempty _ _); [|discriminate]. destruct (all_some _) as [cc|] eqn:EA; [|discriminate].
    injection H as <- <- <- <- <-. eexists. split; [reflexivity|]. repeat split.
  - destruct (me_solver e _ _ cols) as [[st' sol]|k] eqn:ES; [|discriminate].
    unfold msolver. rewrite ES. unfold m_finish_stop, m_post in H. cbv zeta.
    destruct (special_nonempty _ _); [|discriminate]. destruct (all_some _) as [cc|] eqn:EA; [|discriminate].
    injection H as <- <- <- <- <-. eexists. split; [reflexivity|]. repeat split.
Qed.
Lemma m_fit_linked e rs user fixed a cl st so c : m_fit_stop e rs user fixed = MDone a cl st so c ->
  exists fx m fixed' user' s0 f, fit_multi (msolver e fx m) (me_special e) fixed' user' s0 rs = Some (Ok f) /\
    (mc_prebin_sorted e -> nondecreasing s0) /\ mf_splits f = so /\ mf_cols f = c /\ mf_classes f = cl.
Proof.
  unfold m_fit_stop. destruct (negb (mparams_ok _ _)); [discriminate|].
  destruct user as [[cc [|z u]]|]; [discriminate| |].
  - destruct (negb (distinct (z :: u))); [discriminate|]. intros H. apply m_refine_linked in H.
    destruct H as (fx & m & f & F & A & B & C). exists fx, m. eexists _, _, _, f. split; [exact F|].
    split; [intros _; apply sorted_splits_nondecr|]. repeat split; assumption.
  - destruct (me_prebin e _) as [s0|k] eqn:P; [|discriminate]. intros H. apply m_refine_linked in H.
    destruct H as (fx & m & f & F & A & B & C). exists fx, m. eexists _, _, _, f. split; [exact F|].
    split; [intros PS; exact (PS _ _ P)|]. repeat split; assumption.
Qed.
Lemma mfit_ok e rs o o1 : mfit e rs o = (o1, Ok tt) ->
  exists fx m fixed' user' s0 f, fit_multi (msolver e fx m) (me_special e) fixed' user' s0 rs = Some (Ok f) /\
    (mc_prebin_sorted e -> nondecreasing s0) /\
    mo_table o1 = Some (mkMT (me_special e) (me_special_c e) (mf_splits f) (mf_cols f) (mf_classes f)) /\
    mo_splits o1 = Some (mf_splits f) /\ mo_cols o1 = Some (mf_cols f) /\ mo_classes o1 = Some (mf_classes f) /\ mo_fitted o1 = true.
Proof.
  rewrite mfit_after. destruct (m_fit_stop _ _ _ _) as [| | |a cl st so c] eqn:E; cbn [mafter]; try discriminate. intros H. injection H as <-.
  apply m_fit_linked in E. destruct E as (fx & m & f' & u' & s0 & f & F & N & <- & <- & <-).
  exists fx, m, f', u', s0, f. repeat split; assumption.
Qed.

(** ** Failures *)
Lemma clean_iff e r : m_clean (me_special e) r = true <-> mc_clean_record e r.
Proof.
  unfold m_clean, m_missing, mc_clean_record. destruct r as [x y]. cbn [m_x m_y].
  destruct x as [|z]; cbn [x_isnull orb negb andb].
  { split; [discriminate|]. intros (z & y' & K & _). discriminate K. }
  destruct y as [y|]; cbn [negb andb]; [|split; [discriminate|intros (z' & y' & _ & K & _); discriminate K]].
  assert (S : m_special (me_special e) {| m_x := XNum z; m_y := Some y |} = isin (flat_codes (me_special e)) (XNum z)).
  { unfold m_special. cbn [m_x]. destruct (me_special e); reflexivity. }
  rewrite S. pose proof (isin_In (flat_codes (me_special e)) (XNum z)) as I.
  destruct (isin _ _) eqn:E; cbn [negb].
  - split; [discriminate|]. intros (z' & y' & K & _ & N). injection K as <-. destruct N. now apply I.
  - split; [|reflexivity]. intros _. exists z, y. repeat split. intros K. apply I in K. discriminate.
Qed.
Lemma labels_of e rs : mc_labels e rs (m_classes_of (m_clean_data e rs)).
Proof.
  split; [apply np_unique_sorted|]. intros cl. unfold m_classes_of, m_clean_data. rewrite np_unique_In, in_map_iff. split.
  - intros (r & Y & I). apply filter_In in I. destruct I as [I C]. apply clean_iff in C. exists r. split; [exact I|].
    split; [exact C|]. destruct C as (z & y & _ & Hy & _). rewrite Hy in *. congruence.
  - intros (r & I & C & Y). exists r. rewrite Y. split; [reflexivity|]. apply filter_In. split; [exact I|]. now apply clean_iff.
Qed.
Lemma m_stop_labels e rs user fixed : match m_fit_stop e rs user fixed with
  | MNoStart _ => True
  | MEarly _ cl _ | MLate _ cl _ _ _ | MDone _ cl _ _ _ => cl = m_classes_of (m_clean_data e rs)
  end.
Proof.
  assert (R : forall u f s, match m_refine_stop e rs u f s with MNoStart _ => True
    | MEarly _ cl _ | MLate _ cl _ _ _ | MDone _ cl _ _ _ => cl = m_classes_of (m_clean_data e rs) end).
  { intros u f s. unfold m_refine_stop. cbv zeta. destruct (_ <? _)%nat; [reflexivity|].
    destruct (mprebins_st _ _ _ _ _) as [[a [[sp cols]|k]]|]; try reflexivity.
    destruct sp; [unfold m_finish_stop; destruct (m_post _ _ _ _ _ _); reflexivity|].
    destruct (me_solver _ _ _ _) as [[st sol]|k]; [unfold m_finish_stop; destruct (m_post _ _ _ _ _ _); reflexivity|reflexivity]. }
  unfold m_fit_stop. destruct (negb _); [exact I|]. destruct user as [[c [|z u]]|]; [exact I| |].
  - destruct (negb _); [exact I|apply R].
  - destruct (me_prebin _ _); [apply R|exact I].
Qed.
Lemma mprebins_cols fuel cl data : forall a s a' sp cols, mprebins_st fuel cl data a s = Some (a', Ok (sp, cols)) ->
  (sp = [] /\ cols = []) \/ (sp <> [] /\ cols = class_cols sp cl data).
Proof.
  induction fuel as [|fuel IH]; intros a s a' sp cols H; [discriminate|]. cbn [mprebins_st] in H.
  destruct s as [|z s]; [injection H as <- <- <-; left; split; reflexivity|].
  destruct (any (remove_mask_m _ _)).
  - destruct (ma_fixed a) as [[np f]|]; [destruct (any (mand _ _)); [discriminate|]|]; exact (IH _ _ _ _ _ H).
  - injection H as <- <- <-. right. split; [discriminate|reflexivity].
Qed.
Lemma all_some_none {A} (l : list (option A)) : all_some l = None -> In None l.
Proof.
  induction l as [|[a|] l IH]; cbn; intros H; [discriminate| |left; reflexivity].
  right. apply IH. destruct (all_some l); [discriminate|reflexivity].
Qed.
Lemma In_map2 {A B C} (f : A -> B -> C) l : forall m c, In c (map2 f l m) -> exists a b, In a l /\ In b m /\ c = f a b.
Proof.
  induction l as [|a l IH]; intros [|b m] c H; try contradiction. cbn in H. destruct H as [<-|H].
  - exists a, b. repeat split; left; reflexivity.
  - destruct (IH _ _ H) as (x & y & A1 & A2 & A3). exists x, y. repeat split; try right; assumption.
Qed.
Lemma m_post_defined e rs cl splits cols sol : me_special e <> SpDict [] -> cl <> [] ->
  (splits = [] /\ sol = []) \/ (splits <> [] /\ cols = class_cols splits cl (m_clean_data e rs) /\ length sol = S (length splits)) ->
  exists c, m_post e rs cl splits cols sol = Ok c.
Proof.
  intros ND NE H. unfold m_post. cbv zeta.
  assert (SN : special_nonempty (me_special e) cl = true).
  { unfold special_nonempty. destruct cl; [contradiction NE; reflexivity|]. destruct (me_special e) as [| |[|]]; try reflexivity.
    contradiction ND; reflexivity. }
  rewrite SN. destruct (all_some _) as [c|] eqn:E; [exists c; reflexivity|]. exfalso. apply all_some_none in E.
  apply In_map2 in E. destruct E as (k & n & _ & In2 & E). unfold multi_col in E.
  destruct H as [[-> ->]|(NS & EC & L)].
  - apply in_map_iff in In2. destruct In2 as (x & <- & _). discriminate E.
  - destruct splits as [|z splits]; [contradiction NS; reflexivity|]. destruct sol as [|b sol]; [discriminate L|].
    destruct (merge_loop 0 (b :: sol) n) eqn:EM; [discriminate E|]. revert EM. apply merge_loop_some.
    apply in_map_iff in In2. destruct In2 as (x & <- & I). rewrite EC in I. apply class_cols_len in I. destruct I as [_ ->]. rewrite L. lia.
Qed.
Lemma m_no_late e rs user fixed a cl st so k : mc_answers_fit e -> mc_has_clean e rs -> me_special e <> SpDict [] ->
  m_fit_stop e rs user fixed <> MLate a cl st so k.
Proof.
  intros AF (r0 & I0 & C0) ND.
  set (labels := m_classes_of (m_clean_data e rs)).
  assert (NE : labels <> []).
  { destruct (labels_of e rs) as [_ L]. fold labels in L. destruct C0 as (z & y & Hx & Hy & Hn).
    assert (K : In y labels). { apply L. exists r0. split; [exact I0|]. split; [exists z, y; repeat split; assumption|exact Hy]. }
    intros Q. rewrite Q in K. exact K. }
  assert (R : forall u f s, m_refine_stop e rs u f s <> MLate a cl st so k).
  { intros u f s. unfold m_refine_stop. cbv zeta. fold labels. destruct (_ <? _)%nat; [discriminate|].
    destruct (mprebins_st _ _ _ _ _) as [[a' [[sp cols]|k']]|] eqn:PB; try discriminate. apply mprebins_cols in PB.
    destruct sp as [|z sp].
    - unfold m_finish_stop. destruct (m_post_defined e rs labels [] cols [] ND NE) as [c ->]; [left; split; reflexivity|discriminate].
    - destruct PB as [[K _]|[_ EC]]; [discriminate K|].
      destruct (me_solver _ _ _ _) as [[st' sol]|k'] eqn:ES; [|discriminate].
      destruct (AF _ _ _ _ _ (S (length (z :: sp))) ES) as [L _].
      + cbn; lia.
      + rewrite EC. unfold class_cols. destruct labels; [contradiction NE; reflexivity|discriminate].
      + intros c I. rewrite EC in I. apply class_cols_len in I. exact I.
      + unfold m_finish_stop. destruct (m_post_defined e rs labels (z :: sp) cols sol ND NE) as [c ->]; [|discriminate].
        right. split; [discriminate|]. split; assumption. }
  unfold m_fit_stop. destruct (negb _); [discriminate|]. destruct user as [[c [|z u]]|]; [discriminate| |].
  - destruct (negb _); [discriminate|apply R].
  - destruct (me_prebin _ _); [apply R|discriminate].
Qed.
(** what a failed fit leaves *)
Lemma m_failed e rs o o' k : mc_answers_fit e -> mc_has_clean e rs -> me_special e <> SpDict [] -> mfit e rs o = (o', Err k) ->
  mo_status o' = mo_status o /\ mo_splits o' = mo_splits o /\ mo_cols o' = mo_cols o /\ mo_table o' = mo_table o /\
  mo_fitted o' = mo_fitted o.
Proof.
  intros AF HC ND. rewrite mfit_after. destruct (m_fit_stop _ _ _ _) eqn:E; cbn [mafter]; intros H; try discriminate H.
  - injection H as <- _. repeat split.
  - injection H as <- _. repeat split.
  - destruct (m_no_late _ _ _ _ _ _ _ _ _ AF HC ND E).
Qed.
Lemma m_failed_classes e rs o o' k : mfit e rs o = (o', Err k) ->
  o' = o \/ exists l, mo_classes o' = Some l /\ mc_labels e rs l.
Proof.
  rewrite mfit_after. pose proof (m_stop_labels e rs (mo_user o) (mo_fixed o)) as L.
  destruct (m_fit_stop _ _ _ _); cbn [mafter]; intros H; try discriminate H; injection H as <- _.
  - left. reflexivity.
  - right. exists cl. split; [reflexivity|]. rewrite L. apply labels_of.
  - right. exists cl. split; [reflexivity|]. rewrite L. apply labels_of.
Qed.

(** ** json *)
Lemma m_round_trip o fs p fs1 o2 : mto_json o fs p = (fs1, Ok tt) ->
  exists t o3 t', mo_table o = Some t /\ mread_json o2 fs1 p = (o3, Ok tt) /\ mo_table o3 = Some t' /\ mc_same_contents t t'.
Proof.
  unfold mto_json. destruct (negb (mo_fitted o)); [discriminate|]. destruct (mo_table o) as [t|]; [|discriminate].
  intros H.
  assert (E : fs1 = mwrite fs p (MJson (mkMJ (mt_special t) (mt_splits t) (mt_cols t) (mt_classes t)))).
  { destruct (mt_special t), (mt_special_c t); try discriminate H; injection H as <-; reflexivity. }
  subst fs1. eexists t, _, _. split; [reflexivity|]. unfold mread_json, mwrite. rewrite Z.eqb_refl. split; [reflexivity|].
  split; [reflexivity|]. repeat split.
Qed.
Lemma m_never_fit e h : forall w w' outs, mexec e w h = (w', outs) -> ~ mc_called mc_is_fit h ->
  mo_splits (fst w') = mo_splits (fst w) /\ mo_classes (fst w') = mo_classes (fst w).
Proof.
  induction h as [|c h IH]; intros w w' outs H N; [injection H as <- <-; split; reflexivity|].
  apply mexec_cons in H. destruct H as (w1 & v & l & S & E & ->). rewrite mc_called_cons in N.
  destruct (IH _ _ _ E) as [-> ->]; [tauto|]. clear IH E. destruct w as [o fs]. cbn [fst].
  destruct c; cbn [mstep] in S; try (injection S as <- <-; split; reflexivity).
  - destruct N. left. exists rs. reflexivity.
  - destruct (mto_json o fs p). injection S as <- <-. split; reflexivity.
  - unfold mread_json in S. destruct (fs p) as [[]|]; injection S as <- <-; split; reflexivity.
Qed.
