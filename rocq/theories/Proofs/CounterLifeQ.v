(** What generate and display show. *)
From Coq Require Import List ZArith Bool Arith Reals Lra Lia.
From Verif Require Import Model.Arr Model.Core Model.Cat Model.Metrics Model.Scorecard Model.Process Model.Counterfactual Model.CounterLife
  Spec.ScoreSpec Spec.CounterfactualSpec Spec.CounterLifeSpec Proofs.CounterR Proofs.CounterLifeP Props.CounterfactualProps.
Import ListNotations.
Open Scope R_scope.

(** ** The query *)
Lemma nth_error_Some_lt {A} (l : list A) i a : nth_error l i = Some a -> (i < length l)%nat.
Proof. intros H. apply nth_error_Some. congruence. Qed.
Lemma lookup_some cols : forall row v x, lookup cols row v = Some x -> exists n, nth_error cols n = Some v /\ nth_error row n = Some x.
Proof.
  induction cols as [|k cols IH]; intros [|y row] v x H; cbn [lookup] in H; try discriminate. destruct (Z.eqb_spec k v) as [->|N].
  - injection H as ->. now exists 0%nat.
  - destruct (IH _ _ _ H) as (n & A & B). now exists (S n).
Qed.
Lemma lookup_in cols : forall row v, length row = length cols -> In v cols -> exists x, lookup cols row v = Some x.
Proof.
  induction cols as [|k cols IH]; intros [|y row] v L I; cbn in L; try lia; try (now destruct I). cbn [lookup]. destruct (Z.eqb_spec k v) as [->|N]; [eauto|].
  destruct I as [I|I]; [congruence|]. apply IH; [lia|exact I].
Qed.
Lemma lookup_all_some cols row vs : forall q, lookup_all cols row vs = Some q -> values_in_row cols row vs q.
Proof.
  induction vs as [|v vs IH]; intros q H; cbn [lookup_all] in H.
  - injection H as <-. split; [reflexivity|]. intros [|i] v H; discriminate H.
  - destruct (lookup cols row v) as [x|] eqn:Ex; [|discriminate]. destruct (lookup_all cols row vs) as [l|]; [|discriminate]. injection H as <-.
    destruct (IH l eq_refl) as [L H]. split; [cbn; lia|]. intros [|i] v' E; cbn [nth_error] in *.
    + injection E as <-. destruct (lookup_some _ _ _ _ Ex) as (n & A & B). exists n. rewrite B. auto.
    + now apply H.
Qed.
Lemma lookup_all_in cols row vs : length row = length cols -> (forall v, In v vs -> In v cols) -> exists q, lookup_all cols row vs = Some q.
Proof.
  intros L. induction vs as [|v vs IH]; intros H; cbn [lookup_all]; [eauto|]. destruct (lookup_in cols row v L (H v (or_introl eq_refl))) as (x & ->).
  destruct (IH (fun a h => H a (or_intror h))) as (q & ->). eauto.
Qed.
Lemma in_names_in l l' : forallb (fun v => zmem v l) l' = true <-> forall v, In v l' -> In v l.
Proof. rewrite forallb_forall. split; intros H v I; now apply zmem_in, H. Qed.

(** ** Entries *)
Lemma entries_nth names r D zs : forall l, entries names r D zs = Ok l ->
  length l = length zs /\ forall k z, nth_error zs k = Some z -> exists e, nth_error l k = Some e /\ entry_of names r D z = Ok e.
Proof.
  induction zs as [|z zs IH]; intros l H; cbn [entries] in H.
  - injection H as <-. split; [reflexivity|]. intros [|k] z H; discriminate H.
  - destruct (entry_of names r D z) as [e|] eqn:E; [|discriminate]. cbn [rbind] in H. destruct (entries names r D zs) as [t|]; [|discriminate]. injection H as <-.
    destruct (IH t eq_refl) as [L H]. split; [cbn; lia|]. intros [|k] z' Ez; cbn [nth_error] in *; [injection Ez as <-; eauto|now apply H].
Qed.
Lemma entries_all names r D zs : (forall z, In z zs -> exists e, entry_of names r D z = Ok e) -> exists l, entries names r D zs = Ok l.
Proof.
  induction zs as [|z zs IH]; intros H; cbn [entries]; [eauto|]. destruct (H z (or_introl eq_refl)) as (e & ->). destruct (IH (fun a h => H a (or_intror h))) as (l & ->). cbn. eauto.
Qed.

Lemma nth_error_map2 {A B C} (f : A -> B -> C) l1 : forall l2 n a b, nth_error l1 n = Some a -> nth_error l2 n = Some b -> nth_error (map2 f l1 l2) n = Some (f a b).
Proof. induction l1 as [|x l1 IH]; intros [|y l2] [|n] a b Ha Hb; cbn in *; try discriminate; [injection Ha as <-; injection Hb as <-; reflexivity|eapply IH; eassumption]. Qed.
Lemma map2_len {A B C} (f : A -> B -> C) l1 : forall l2, length l1 = length l2 -> length (map2 f l1 l2) = length l2.
Proof. induction l1 as [|x l1 IH]; intros [|y l2] L; cbn in *; try lia. rewrite IH; lia. Qed.
Lemma index_of_nth names : forall v i, NoDup names -> nth_error names i = Some v -> index_of names v = Some i.
Proof.
  induction names as [|k names IH]; intros v [|i] N E; cbn [nth_error] in E; try discriminate.
  - injection E as ->. cbn. now rewrite Z.eqb_refl.
  - inversion N; subst. cbn [index_of]. destruct (Z.eqb_spec k v) as [->|Nv]; [exfalso; apply H1; eapply nth_error_In; eassumption|]. rewrite (IH v i) by assumption. reflexivity.
Qed.
Lemma index_of_none names v : ~ In v names -> index_of names v = None.
Proof.
  induction names as [|k names IH]; intros H; cbn [index_of]; [reflexivity|]. destruct (Z.eqb_spec k v) as [->|N]; [exfalso; apply H; now left|]. rewrite IH; [reflexivity|]. intros I. apply H. now right.
Qed.

(** the frame shown for one entry of a one-row query *)
Lemma shown_entry names r D z e cols row only outc : NoDup names -> q_rows (r_query r) = [row] -> q_cols (r_query r) = cols -> length row = length cols ->
  (forall i, shown_feature D z i = Ok (match moves_shown D z i with Some j => NewBin j | None => Kept end)) ->
  entry_of names r D z = Ok e ->
  frame_of names cols row (moves_shown D z) only (show only outc e) /\
  f_outcome (show only outc e) = (if outc then Some (outcome_shown (r_type r) (cf_score D z)) else None).
Proof.
  intros Nd Hr Hc Hl Hs He. unfold entry_of in He. rewrite Hr, Hc in He. destruct (negb (forallb _ _)) eqn:Ef in He; [discriminate|]. injection He as <-. clear Ef.
  split; [|unfold show; cbn [f_outcome e_type e_score]; destruct outc; reflexivity].
  unfold frame_of, show. cbn [f_cols f_rows e_cols e_rows e_features map2 seq length map]. split; [reflexivity|]. eexists. split; [reflexivity|].
  assert (L1 : length (map2 (new_cells names D z 0) cols row) = length row) by (apply map2_len; lia).
  split; [rewrite map2_len; [exact L1|etransitivity; [exact (eq_sym Hl)|symmetry; exact L1]]|]. intros n v x Hv Hx.
  refine (ex_intro _ _ (conj (nth_error_map2 _ _ _ _ _ _ Hv (nth_error_map2 _ _ _ _ _ _ Hv Hx)) _)). cbv beta.
  assert (S1 : forall i, new_index D z i = match moves_shown D z i with Some j => [j] | None => [] end).
  { intros i. specialize (Hs i). unfold shown_feature in Hs. unfold moves_shown, shown_feature. destruct (new_index D z i) as [|j [|]]; [reflexivity|reflexivity|discriminate Hs]. }
  set (fts := map (fun i => nth i names 0%Z) (filter (fun i => negb (Nat.eqb (length (new_index D z i)) 0)) (seq 0 (length names)))).
  assert (Fin : forall i, nth_error names i = Some v -> (zmem v fts = true <-> moves_shown D z i <> None)).
  { intros i Hi. rewrite zmem_in. unfold fts. rewrite in_map_iff. split.
    - intros (k & Ek & Ik). apply filter_In in Ik as [Ik Nk]. apply in_seq in Ik. rewrite S1 in Nk.
      assert (k = i) as ->; [|destruct (moves_shown D z i); [discriminate|discriminate Nk]].
      apply (proj1 (NoDup_nth_error names) Nd); [lia|]. rewrite Hi, <- Ek. apply nth_error_nth'. lia.
    - intros M. exists i. split; [now apply nth_error_nth|]. apply filter_In. split; [apply in_seq; apply nth_error_Some_lt in Hi; lia|]. rewrite S1. destruct (moves_shown D z i); [reflexivity|congruence]. }
  split.
  - intros i Hi. unfold new_cells. rewrite (index_of_nth _ _ _ Nd Hi), S1. specialize (Fin i Hi). destruct (moves_shown D z i) as [j|]; cbn [nth_error].
    + assert (E : zmem v fts = true) by (apply Fin; discriminate). rewrite E, andb_false_r. reflexivity.
    + destruct (zmem v fts) eqn:E; [exfalso; now apply (proj1 Fin)|]. cbn [negb]; rewrite ?andb_true_r. destruct only; reflexivity.
  - intros Ni. unfold new_cells. rewrite (index_of_none _ _ Ni). destruct (zmem v fts) eqn:E; [|cbn [negb]; rewrite ?andb_true_r; destruct only; reflexivity].
    exfalso. apply Ni. apply zmem_in in E. unfold fts in E. apply in_map_iff in E as (k & <- & Ik). apply filter_In in Ik as [Ik _]. apply in_seq in Ik. apply nth_In. lia.
Qed.
Lemma entry_exists names r D z row : q_rows (r_query r) = [row] ->
  (forall i, shown_feature D z i = Ok (match moves_shown D z i with Some j => NewBin j | None => Kept end)) -> exists e, entry_of names r D z = Ok e.
Proof.
  intros Hr Hs. unfold entry_of. rewrite Hr. destruct (forallb _ _) eqn:E; cbn [negb]; [eauto|]. exfalso.
  assert (X : forallb (fun i => (length (new_index D z i) =? 0)%nat || (length (new_index D z i) =? length [row])%nat) (seq 0 (length names)) = true).
  { apply forallb_forall. intros i _. specialize (Hs i). unfold shown_feature in Hs. destruct (new_index D z i) as [|j [|]]; [reflexivity|reflexivity|]. destruct (moves_shown D z i); discriminate Hs. }
  rewrite X in E. discriminate.
Qed.

(** ** The request *)
Lemma nonact_names names act i nm : nth_error names i = Some nm -> ~ In i (nonact_of names act) -> forall l, act = Some l -> In nm l.
Proof.
  intros Hi Ni l ->. cbn [nonact_of] in Ni. destruct (zmem nm l) eqn:E; [now apply zmem_in|]. exfalso. apply Ni. apply filter_In.
  split; [apply in_seq; apply nth_error_Some_lt in Hi; lia|]. rewrite (nth_error_nth _ _ _ Hi), E. reflexivity.
Qed.
Lemma requests_hard r c : requests r c -> diversity c = false \/ r_ncf r <> 1%Z -> cmem c (hard_of r) = true.
Proof.
  intros (l & E & I) H. unfold hard_of. rewrite E. cbn [optlist]. destruct (Z.eqb_spec (r_ncf r) 1) as [E1|N]; apply cmem_iff; [|exact I]. apply filter_In. split; [exact I|]. destruct H as [->|H]; [reflexivity|contradiction].
Qed.
Lemma prox_given names r : (forall l, r_obj r = Some l -> exists wt, In (OProximity, wt) l) -> g_prox (params_of names r) <> None.
Proof.
  intros H. cbn [g_prox params_of]. unfold objectives_of. destruct (r_obj r) as [l|]; [|destruct (r_method r) as [[]|]; discriminate].
  destruct (H l eq_refl) as (wt & I). clear H. induction l as [|[k w] l IH]; [destruct I|]. cbn [oassoc]. destruct (objname_eqb k OProximity) eqn:E; [discriminate|].
  destruct I as [I|I]; [injection I as -> _; discriminate E|now apply IH].
Qed.

(** ** A successful generate with a solution *)
Lemma generate_inv c sm s r st z s' : cf_generate c sm s r (Answer st z) = (s', COk tt) -> has_solution st = true ->
  exists names G D l, cs_names s = Some names /\ posed c sm s r = Ok (G, D) /\ rectangular D = false /\ entries names r D (map z (seq 0 (n_of r))) = Ok l /\
    cs_cfs s' = Some l /\ cs_status s' = Some st /\ cs_generated s' = true.
Proof.
  unfold cf_generate. intros H Hst. destruct (posed c sm s r) as [[G D]|] eqn:E; [|discriminate]. rewrite Hst in H. destruct (rectangular D) eqn:Er; [discriminate|].
  assert (N : exists names, cs_names s = Some names).
  { unfold posed in E. destruct (negb (cs_fitted s)); [discriminate|]. destruct (cs_names s); [eauto|discriminate]. }
  destruct N as (names & N). rewrite N in H. destruct (entries names r D _) as [l|] eqn:El; [|discriminate]. injection H as <-. exists names, G, D, l. rewrite N. auto 10.
Qed.
Lemma posed_inv u w r G D row : in_step u w -> q_rows (r_query r) = [row] -> posed (w_card w) (w_sm w) (w_s w) r = Ok (G, D) ->
  let c := w_card w in acceptable (k_binary c) (k_names c) r /\ G = params_of (k_names c) r /\
  exists X d q x, u_math u c X = Ok d /\ values_in_row (q_cols (r_query r)) row (k_names c) q /\ transform_query (k_vars c) q = Ok x /\
    D = make_data (w_sm w) (k_vars c) x (k_int c) (p_wr d) (p_F d) (p_mu d) (p_pw d).
Proof.
  intros (X & d & M & F & N & P) Hr H. unfold posed in H. rewrite F, N, P in H. cbn [negb] in H. destruct (check_request _ _ r) eqn:Ec; cbn [negb] in H; [|discriminate].
  unfold transform_table in H. destruct (negb (forallb _ _)); [discriminate|]. destruct (negb (forallb _ _)); [discriminate|]. rewrite Hr in H. cbn [transform_rows] in H.
  destruct (transform_row _ _ row) as [x|] eqn:Et; [|discriminate]. cbn [rbind] in H. destruct (Nat.ltb _ _); [discriminate|]. injection H as <- <-.
  split; [now apply check_iff|]. split; [reflexivity|]. unfold transform_row in Et. destruct (lookup_all _ row _) as [q|] eqn:Eq; [|discriminate].
  exists X, d, q, x. split; [exact M|]. split; [now apply lookup_all_some|]. split; [exact Et|reflexivity].
Qed.
Lemma posed_ok u w r row q x : in_step u w -> length (k_names (w_card w)) = length (k_vars (w_card w)) -> acceptable (k_binary (w_card w)) (k_names (w_card w)) r ->
  q_rows (r_query r) = [row] -> lookup_all (q_cols (r_query r)) row (k_names (w_card w)) = Some q -> transform_query (k_vars (w_card w)) q = Ok x ->
  exists d, posed (w_card w) (w_sm w) (w_s w) r = Ok (params_of (k_names (w_card w)) r,
    make_data (w_sm w) (k_vars (w_card w)) x (k_int (w_card w)) (p_wr d) (p_F d) (p_mu d) (p_pw d)).
Proof.
  intros (X & d & M & F & N & P) Hl Ha Hr Hq Hx. exists d. unfold posed. rewrite F, N, P. cbn [negb]. apply check_iff in Ha. rewrite Ha. cbn [negb].
  unfold transform_table. rewrite Hr.
  assert (A : forallb (fun v => zmem v (q_cols (r_query r))) (k_names (w_card w)) = true).
  { apply in_names_in. intros v I. apply In_nth_error in I as (i & Hi). destruct (proj2 (lookup_all_some _ _ _ _ Hq) i v Hi) as (n & Hn & _). eapply nth_error_In; eassumption. }
  assert (B : forallb (fun v => zmem v (k_names (w_card w))) (k_names (w_card w)) = true) by (apply in_names_in; auto).
  rewrite A, B. cbn [negb transform_rows]. unfold transform_row. rewrite Hq, Hx. cbn [rbind].
  replace (length (k_names (w_card w)) <? length (pr_coef (mkPr (k_int (w_card w)) (map sv_coef (k_vars (w_card w))) d)))%nat with false; [reflexivity|].
  symmetry. apply Nat.ltb_ge. cbn [pr_coef]. rewrite map_length. lia.
Qed.

(** ** Equal numbers of candidate rows *)
Lemma combine_filter_len {A} (f : A -> bool) l : forall n, length (filter (fun jm : nat * A => f (snd jm)) (combine (seq n (length l)) l)) = length (filter f l).
Proof. induction l as [|a l IH]; intros n; cbn [length seq combine filter snd]; [reflexivity|]. destruct (f a); cbn [length]; rewrite IH; reflexivity. Qed.
Lemma cand_len sm v a : length (sv_metric v) = (n_bins_of v + n_special (sv_sp v) + 1)%nat -> sm = true \/ n_special (sv_sp v) = 1%nat ->
  length (candidates sm (sv_metric v) a) = n_choices sm v a.
Proof.
  intros L H. unfold candidates, n_choices. rewrite (combine_filter_len (fun m => if Req_EM_T m a then false else true)). destruct sm; [reflexivity|].
  destruct H as [H|H]; [discriminate|]. replace (length (sv_metric v) - 2)%nat with (n_bins_of v) by lia. reflexivity.
Qed.
Lemma rect_iff D : d_p D <> 0%nat -> rectangular D = true <-> forall i j, (i < d_p D)%nat -> (j < d_p D)%nat -> length (cnd D i) = length (cnd D j).
Proof.
  intros N. unfold rectangular. destruct (d_p D) as [|p] eqn:E; [congruence|]. cbn [seq map]. rewrite forallb_forall. split.
  - intros H. assert (A : forall i, (i < S p)%nat -> length (cnd D i) = length (cnd D 0)).
    { intros [|i] Hi; [reflexivity|]. symmetry. apply Nat.eqb_eq, H. apply in_map_iff. exists (S i). split; [reflexivity|]. apply in_seq. lia. }
    intros i j Hi Hj. rewrite (A i Hi), (A j Hj). reflexivity.
  - intros H x Hx. apply in_map_iff in Hx as (i & <- & Hi). apply in_seq in Hi. apply Nat.eqb_eq, H; lia.
Qed.
Lemma rect_choices sm vars x ic wr F mu pw : Forall svar_ok vars -> plain_rows sm vars -> length x = length vars -> vars <> [] ->
  rectangular (make_data sm vars x ic wr F mu pw) = true <-> ~ different_choices sm vars x.
Proof.
  intros Hv Hp Hl Nn. set (D := make_data sm vars x ic wr F mu pw). assert (Ep : d_p D = length vars) by (unfold d_p, D; cbn; apply map_length).
  assert (C : forall i v a, nth_error vars i = Some v -> nth_error x i = Some a -> length (cnd D i) = n_choices sm v a).
  { intros i v a Ev Ea. unfold cnd, D, make_data. cbn [d_cand]. rewrite (nth_error_nth _ i [] (nth_error_map2 _ _ _ _ _ _ Ev Ea)).
    assert (I : In v vars) by (eapply nth_error_In; exact Ev). apply cand_len; [now apply ok_len with (vars := vars)|now apply Hp]. }
  rewrite rect_iff by (rewrite Ep; destruct vars; [congruence|discriminate]). rewrite Ep. split.
  - intros H (i & j & v & v' & a & a' & E1 & E2 & E3 & E4 & Nc). apply Nc. rewrite <- (C _ _ _ E1 E2), <- (C _ _ _ E3 E4). apply H; [eapply nth_error_Some_lt; exact E1|eapply nth_error_Some_lt; exact E3].
  - intros H i j Hi Hj. destruct (Nat.eq_dec (length (cnd D i)) (length (cnd D j))) as [E|E]; [exact E|]. exfalso. apply H.
    destruct (nth_error vars i) as [v|] eqn:E1; [|apply nth_error_None in E1; lia]. destruct (nth_error vars j) as [v'|] eqn:E3; [|apply nth_error_None in E3; lia].
    destruct (nth_error x i) as [a|] eqn:E2; [|apply nth_error_None in E2; lia]. destruct (nth_error x j) as [a'|] eqn:E4; [|apply nth_error_None in E4; lia].
    exists i, j, v, v', a, a'. rewrite <- (C _ _ _ E1 E2), <- (C _ _ _ E3 E4). auto 10.
Qed.
Lemma entries_fail names r D z zs : In z zs -> (forall e, entry_of names r D z <> Ok e) -> entries names r D zs = Err ValueError.
Proof.
  intros I N. assert (V : forall z e, entry_of names r D z = Err e -> e = ValueError) by (intros z' e H; unfold entry_of in H; destruct (negb _); [congruence|discriminate]).
  induction zs as [|z0 zs IH]; [destruct I|]. cbn [entries]. destruct (entry_of names r D z0) as [e|e] eqn:E; cbn [rbind]; [|now rewrite (V _ _ E)].
  destruct I as [->|I]; [now apply N in E|]. now rewrite IH.
Qed.
(** nothing moved *)
Definition stay (D : cfdata) (k i : nat) : list bool := CounterP.enc None (cnd D i).
Lemma stay_index D k i : new_index D (stay D k) i = [].
Proof. unfold new_index, stay, CounterP.enc. generalize (cnd D i). induction l as [|jm l IH]; [reflexivity|]. cbn [map select]. exact IH. Qed.
Lemma stay_sound sm vars x ic wr F mu pw G o : Forall svar_ok vars -> plain_rows sm vars -> length x = length vars -> (0 <= g_maxch G)%Z ->
  (forall i, In i (g_nonact G) -> (i < length vars)%nat) -> (forall y, o <> OProb y) ->
  let D := make_data sm vars x ic wr F mu pw in outcome_met (g_min G) (g_max G) o (score_after vars x ic (fun _ => None)) -> sound_answer G D o 1 (stay D).
Proof.
  intros Hv Hp Hx Hm Hn Ho D Ha. exists (CounterQ.build sm vars x ic wr F mu pw o (fun _ _ => None)). split; [|intros k i; reflexivity].
  apply (CounterQ.build_feasible sm vars x ic wr F mu pw Hx (ok_len _ Hv) Hp G o 1 (fun _ _ => None)); [|exact Hn|exact Ho].
  apply request_one; [|exact Ha]. split; [intros i j E; discriminate E|]. unfold n_changed.
  replace (filter _ (seq 0 (length vars))) with (@nil nat); [exact Hm|]. symmetry. induction (seq 0 (length vars)); [reflexivity|exact IHl].
Qed.
Lemma stay_score D k : cf_score D (stay D k) = sumn (d_p D) (fun i => nth i (d_coef D) 0 * xi D i) + d_int D.
Proof.
  unfold cf_score. f_equal. unfold sumn; f_equal; apply map_ext. intros i. f_equal. unfold newx, stay. replace (rsum _) with 0; [lra|]. symmetry.
  generalize (cnd D i). induction l as [|jm l IH]; [reflexivity|]. unfold CounterP.enc in *. cbn [map map2 b2r]. unfold rsum in *. cbn [fold_right]. rewrite IH. lra.
Qed.
Lemma map2_ext' {A B C} (f g : A -> B -> C) : (forall a b, f a b = g a b) -> forall l l', map2 f l l' = map2 g l l'.
Proof. intros H. induction l as [|a l IH]; intros [|b l']; try reflexivity. cbn [map2]. now rewrite H, IH. Qed.
Lemma stay_entry names r D k : exists e, entry_of names r D (stay D k) = Ok e /\ e_type e = r_type r /\
  e_rows e = map2 (fun n row => map2 (fun v x => Orig x) (q_cols (r_query r)) row) (seq 0 (length (q_rows (r_query r)))) (q_rows (r_query r)) /\
  e_cols e = q_cols (r_query r) /\ e_score e = cf_score D (stay D k) /\ e_features e = @nil name.
Proof.
  unfold entry_of.
  assert (A : forallb (fun i => (length (new_index D (stay D k) i) =? 0)%nat || (length (new_index D (stay D k) i) =? length (q_rows (r_query r)))%nat) (seq 0 (length names)) = true).
  { apply forallb_forall. intros i _. rewrite stay_index. reflexivity. }
  cbv zeta. rewrite A. cbn [negb]. eexists. split; [reflexivity|]. cbn [e_type e_rows e_cols e_score e_features]. split; [reflexivity|]. split; [|split; [reflexivity|split; [reflexivity|]]].
  - assert (N : forall n v x, new_cells names D (stay D k) n v x = Orig x).
    { intros n v x. unfold new_cells. destruct (index_of names v) as [i|]; [|reflexivity]. rewrite stay_index. destruct n; reflexivity. }
    apply map2_ext'. intros n row. apply map2_ext'. intros v x. apply N.
  - replace (filter _ (seq 0 (length names))) with (@nil nat); [reflexivity|]. symmetry. clear A. induction (seq 0 (length names)) as [|i l IH]; [reflexivity|]. cbn [filter]. rewrite stay_index. exact IH.
Qed.
Lemma posed_gen c sm s r names P x xs : cs_fitted s = true -> cs_names s = Some names -> cs_prob s = Some P -> acceptable (k_binary c) names r ->
  transform_table c names (r_query r) = Ok (x :: xs) -> (length (pr_coef P) <= length (k_names c))%nat -> posed c sm s r = Ok (params_of names r, data_of c sm P x).
Proof.
  intros F N P0 A T L. unfold posed. rewrite F, N, P0. cbn [negb]. apply check_iff in A. rewrite A. cbn [negb]. rewrite T.
  destruct (Nat.ltb_spec (length (k_names c)) (length (pr_coef P))); [lia|reflexivity].
Qed.
