(** C71: histories of a BinningProcess. *)
From Coq Require Import List ZArith Bool QArith String Lia Permutation.
From Verif Require Import Model.Arr Model.Core Model.Process Model.ProcLife Spec.ProcLifeSpec Proofs.ProcessP.
Import ListNotations.
Open Scope Z_scope.

(** ** dicts *)
Lemma dget_dset {V} (d : dict V) k v n : dget (dset d k v) n = if k =? n then Some v else dget d n.
Proof.
  induction d as [|[k' v'] d IH]; cbn [dset dget]; [reflexivity|]. destruct (Z.eqb_spec k' k) as [->|N]; cbn [dget].
  - destruct (k =? n); reflexivity.
  - destruct (Z.eqb_spec k' n) as [->|N2]; [|exact IH]. destruct (Z.eqb_spec k n); [congruence|reflexivity].
Qed.
Lemma dget_in {V} (d : dict V) k v : NoDup (map fst d) -> (dget d k = Some v <-> In (k, v) d).
Proof.
  induction d as [|[k' v'] d IH]; cbn [map fst dget]; intros N; [split; [discriminate|intros []]|].
  inversion N as [|? ? N1 N2]; subst. destruct (Z.eqb_spec k' k) as [->|Q].
  - split; [intros H; injection H as ->; left; reflexivity|]. intros [H|H]; [now injection H as ->|].
    destruct N1. apply in_map_iff. exists (k, v). split; [reflexivity|exact H].
  - rewrite (IH N2). split; [now right|]. intros [H|H]; [congruence|exact H].
Qed.
Lemma dget_none {V} (d : dict V) k : dget d k = None <-> ~ In k (map fst d).
Proof.
  induction d as [|[k' v'] d IH]; cbn [map fst dget]; [split; [intros _ []|reflexivity]|].
  destruct (Z.eqb_spec k' k) as [->|Q]; [split; [discriminate|intros H; destruct H; now left]|]. rewrite IH. split; [intros H [E|E]; [congruence|auto]|intros H E; apply H; now right].
Qed.
Lemma dset_key_list {V} (d : dict V) k v : map fst (dset d k v) = if zmem k (map fst d) then map fst d else map fst d ++ [k].
Proof.
  induction d as [|[k' v'] d IH]; cbn [dset map fst zmem existsb]; [reflexivity|]. rewrite (Z.eqb_sym k k').
  destruct (Z.eqb_spec k' k) as [->|Q]; cbn [map fst orb]; [reflexivity|]. rewrite IH. fold (zmem k (map fst d)).
  destruct (zmem k (map fst d)); reflexivity.
Qed.
Lemma zmem_In k l : zmem k l = true <-> In k l.
Proof. unfold zmem. rewrite existsb_exists. split; [intros (x & H & E); apply Z.eqb_eq in E; now subst|intros H; exists k; split; [exact H|apply Z.eqb_refl]]. Qed.
Lemma zmem_not k l : zmem k l = false <-> ~ In k l.
Proof. rewrite <- zmem_In. destruct (zmem k l); split; congruence. Qed.
Lemma dict_ext {V} (d e : dict V) : NoDup (map fst d) -> map fst d = map fst e -> (forall n, dget d n = dget e n) -> d = e.
Proof.
  revert e; induction d as [|[k v] d IH]; intros e N K G; destruct e as [|[k2 v2] e]; try discriminate; [reflexivity|].
  cbn [map fst] in *. injection K as <- K. inversion N as [|? ? N1 N2]; subst.
  pose proof (G k) as Gk. cbn [dget] in Gk. rewrite Z.eqb_refl in Gk. injection Gk as <-. f_equal. apply IH; [exact N2|exact K|].
  intros n. specialize (G n). cbn [dget] in G. destruct (Z.eqb_spec k n) as [->|Q]; [|exact G].
  transitivity (@None V); [apply dget_none; exact N1|symmetry; apply dget_none; rewrite <- K; exact N1].
Qed.

(** ** equal lookups *)
Definition deq {V} (d e : dict V) : Prop := NoDup (map fst d) /\ NoDup (map fst e) /\ forall n, dget d n = dget e n.
Lemma deq_refl {V} (d : dict V) : NoDup (map fst d) -> deq d d.
Proof. unfold deq; auto. Qed.
Lemma deq_dset {V} (d e : dict V) k v : deq d e -> deq (dset d k v) (dset e k v).
Proof.
  intros (A & B & G). split; [now apply dset_nodup|]. split; [now apply dset_nodup|]. intros n. rewrite !dget_dset.
  destruct (k =? n); [reflexivity|apply G].
Qed.
Lemma deq_perm {V} (d e : dict V) : deq d e -> Permutation d e.
Proof.
  intros (A & B & G). apply NoDup_Permutation; [now apply NoDup_map_inv in A|now apply NoDup_map_inv in B|].
  intros [k v]. rewrite <- !dget_in by assumption. rewrite G. tauto.
Qed.
Lemma perm_count {A} (p : A -> bool) (l m : list A) : Permutation l m -> List.length (filter p l) = List.length (filter p m).
Proof. induction 1; cbn [filter]; try (destruct (p x); cbn [List.length]; lia); try lia. destruct (p x), (p y); reflexivity. Qed.

(** ** states with the same answers *)
Record same {V} (s t : pst V) : Prop := mkSame {
  sm_fitted : s_fitted s = s_fitted t; sm_target : s_target s = s_target t; sm_samples : s_samples s = s_samples t;
  sm_nvars : s_nvars s = s_nvars t; sm_dtypes : deq (s_dtypes s) (s_dtypes t); sm_vars : deq (s_vars s) (s_vars t);
  sm_stats : s_stats s = s_stats t; sm_support : s_support s = s_support t; sm_updated : s_updated s = s_updated t }.
Ltac same_tac H := destruct H as [? ? ? ? ? ? ? ? ?]; constructor; cbn; auto.
Lemma same_target {V} k (s t : pst V) : same s t -> same (with_target k s) (with_target k t).
Proof. intros H; same_tac H. Qed.
Lemma same_shape {V} n m (s t : pst V) : same s t -> same (with_shape n m s) (with_shape n m t).
Proof. intros H; same_tac H. Qed.
Lemma same_vars_w {V} d e v u (s t : pst V) : same s t -> deq d e -> deq v u -> same (with_vars d v s) (with_vars e u t).
Proof. intros H A B; same_tac H. Qed.
Lemma same_stats_w {V} d (s t : pst V) : same s t -> same (with_stats d s) (with_stats d t).
Proof. intros H; same_tac H. Qed.
Lemma same_support_w {V} l (s t : pst V) : same s t -> same (with_support l s) (with_support l t).
Proof. intros H; same_tac H. Qed.
Lemma same_updated_w {V} b (s t : pst V) : same s t -> same (with_updated b s) (with_updated b t).
Proof. intros H; same_tac H. Qed.
Lemma same_fitted_w {V} (s t : pst V) : same s t -> same (with_fitted s) (with_fitted t).
Proof. intros H; same_tac H. Qed.
Lemma same_refl {V} (s : pst V) : NoDup (map fst (s_dtypes s)) -> NoDup (map fst (s_vars s)) -> same s s.
Proof. intros A B; constructor; try reflexivity; now apply deq_refl. Qed.

Section Run.
Context {C Y W V T : Type} (w : world C Y W V T) (argsort : list Z -> list nat).
Notation St := (pst V).

Lemma fit_loop_same o k y sw cols : forall d e v u, deq d e -> deq v u ->
  let a := fit_loop w o k y sw cols d v in let b := fit_loop w o k y sw cols e u in
  snd a = snd b /\ deq (fst (fst a)) (fst (fst b)) /\ deq (snd (fst a)) (snd (fst b)).
Proof.
  induction cols as [|[n c] cols IH]; intros d e v u A B; cbn [fit_loop]; [cbn; auto|].
  destruct (rbind c _) as [[t b]|x]; [|cbn; auto]. apply IH; now apply deq_dset.
Qed.
Lemma obj_stats_same k (v u : dict (bobj V)) n : deq v u -> obj_stats w k v n = obj_stats w k u n.
Proof. intros (_ & _ & G). unfold obj_stats. now rewrite G. Qed.
Lemma stats_loop_same k (v u : dict (bobj V)) names : deq v u -> forall d, stats_loop w k v names d = stats_loop w k u names d.
Proof.
  intros H. induction names as [|n r IH]; intros d; cbn [stats_loop]; [reflexivity|]. rewrite (obj_stats_same k v u n H).
  destruct (obj_stats w k u n); [apply IH|reflexivity].
Qed.
Definition same2 {R} (a b : St * R) : Prop := same (fst a) (fst b) /\ snd a = snd b.
Lemma selection_same o s t : same s t -> same2 (selection w argsort o s) (selection w argsort o t).
Proof.
  intros H. unfold selection. rewrite <- (sm_target _ _ H), <- (sm_nvars _ _ H), <- (sm_stats _ _ H).
  destruct (s_target s) as [k|]; [|split; [exact H|reflexivity]]. rewrite (stats_loop_same k _ _ _ (sm_vars _ _ H)).
  destruct (stats_loop w k (s_vars t) (po_names o) (s_stats s)) as [d [q|e]]; [|split; [now apply same_stats_w|reflexivity]].
  destruct (select argsort o (s_nvars s) d) as [sup r]. split; [apply same_support_w; now apply same_stats_w|reflexivity].
Qed.
Lemma finish_same o r q : same2 r q -> same2 (finish w argsort o r) (finish w argsort o q).
Proof.
  intros [H E]. unfold finish. rewrite <- E. destruct (snd r); [|split; [exact H|reflexivity]].
  pose proof (selection_same o _ _ H) as [A B]. destruct (selection w argsort o (fst r)) as [s1 r1], (selection w argsort o (fst q)) as [s2 r2].
  cbn [fst snd] in A, B. subst r2. destruct r1; split; cbn [fst snd]; auto using same_fitted_w.
Qed.
Lemma fit_vars_same o k y sw cols s t : same s t -> same2 (fit_vars w o k y sw cols s) (fit_vars w o k y sw cols t).
Proof.
  intros H. unfold fit_vars. pose proof (fit_loop_same o k y sw cols _ _ _ _ (sm_dtypes _ _ H) (sm_vars _ _ H)) as F.
  destruct (fit_loop w o k y sw cols (s_dtypes s) (s_vars s)) as [[d v] r], (fit_loop w o k y sw cols (s_dtypes t) (s_vars t)) as [[e u] r'].
  cbn in F. destruct F as (-> & A & B). split; [now apply same_vars_w|reflexivity].
Qed.
Lemma p_fit_same o s t X y sw : same s t -> same2 (p_fit w argsort o s X y sw) (p_fit w argsort o t X y sw).
Proof.
  intros H. unfold p_fit. destruct (check_params o); [|split; [exact H|reflexivity]].
  destruct (tkind_eqb (w_target w y) TUnsupported); [split; [now apply same_target|reflexivity]|].
  destruct (match sw with Some _ => _ | None => _ end); [split; [now apply same_target|reflexivity]|].
  destruct (crit_check w o (w_target w y)); [|split; [now apply same_target|reflexivity]].
  destruct (_ =? _)%nat; [|split; [apply same_shape; now apply same_target|reflexivity]].
  apply finish_same, fit_vars_same, same_shape, same_target, H.
Qed.
Lemma p_fit_disk_same o s t p f n : same s t -> same2 (p_fit_disk w argsort o s p f n) (p_fit_disk w argsort o t p f n).
Proof.
  intros H. unfold p_fit_disk. destruct (check_params o); [|split; [exact H|reflexivity]].
  destruct (rbind _ _) as [c|e]; [|split; [exact H|reflexivity]].
  destruct (tkind_eqb (w_target w (w_as_target w c)) TUnsupported); [split; [now apply same_target|reflexivity]|].
  destruct (crit_check w o _); [|split; [now apply same_target|reflexivity]].
  destruct (forallb _ _); [|split; [now apply same_target|reflexivity]].
  apply finish_same, fit_vars_same, same_shape, same_target, H.
Qed.
Lemma fold_dset_same {A B} (f : name * A -> B) (l : dict A) : forall (d e : dict B), deq d e ->
  deq (fold_left (fun d kb => dset d (fst kb) (f kb)) l d) (fold_left (fun d kb => dset d (fst kb) (f kb)) l e).
Proof. induction l as [|x l IH]; intros d e H; cbn [fold_left]; [exact H|]. apply IH. now apply deq_dset. Qed.
Lemma p_fit_dict_same o s t l : same s t -> same2 (p_fit_dict w argsort o s l) (p_fit_dict w argsort o t l).
Proof.
  intros H. unfold p_fit_dict. destruct (check_params o); [|split; [exact H|reflexivity]].
  destruct (negb _); [split; [exact H|reflexivity]|]. destruct (check_objects None l) as [[c|]|e]; try (split; [exact H|reflexivity]).
  destruct (crit_check w o _); [|split; [now apply same_target|reflexivity]].
  apply finish_same. split; [|reflexivity]. cbn [fst]. apply same_vars_w.
  - apply same_shape, same_target, H.
  - apply (fold_dset_same (fun kb => obj_cat (snd kb))). exact (sm_dtypes _ _ H).
  - apply (fold_dset_same (fun kb => snd kb)). exact (sm_vars _ _ H).
Qed.
Lemma p_update_same o s t n b : same s t -> same2 (p_update o s n b) (p_update o t n b).
Proof.
  intros H. unfold p_update. rewrite <- (sm_fitted _ _ H), <- (sm_target _ _ H). pose proof (sm_vars _ _ H) as D. destruct D as (A & B & G).
  rewrite <- G. destruct (negb (s_fitted s)); [split; [exact H|reflexivity]|]. destruct (negb (zmem n _)); [split; [exact H|reflexivity]|].
  destruct (negb (accepts _ _)); [split; [exact H|reflexivity]|]. destruct (dget (s_vars s) n) as [old|]; [|split; [exact H|reflexivity]].
  destruct (match v_name (b_opts old) with Some _ => _ | None => _ end); [split; [exact H|reflexivity]|].
  destruct (match v_name (b_opts b) with Some _ => _ | None => _ end); [split; [exact H|reflexivity]|].
  split; [|reflexivity]. apply same_updated_w, same_vars_w; [exact H|exact (sm_dtypes _ _ H)|apply deq_dset; exact (sm_vars _ _ H)].
Qed.
Lemma summary_rows_same (s t : St) : same s t -> summary_rows s = summary_rows t.
Proof. intros H. unfold summary_rows. now rewrite (sm_support _ _ H), (sm_target _ _ H), (sm_stats _ _ H). Qed.
Lemma p_summary_same o s t : same s t -> same2 (p_summary w argsort o s) (p_summary w argsort o t).
Proof.
  intros H. unfold p_summary. rewrite <- (sm_fitted _ _ H), <- (sm_updated _ _ H).
  destruct (negb (s_fitted s)); [split; [exact H|reflexivity]|]. destruct (s_updated s).
  - pose proof (selection_same o s t H) as [A B]. destruct (selection w argsort o s) as [s1 r1], (selection w argsort o t) as [s2 r2].
    cbn [fst snd] in A, B. subst r2. destruct r1; [|split; [exact A|reflexivity]].
    split; cbn [fst snd]; [now apply same_updated_w|apply summary_rows_same; now apply same_updated_w].
  - split; [exact H|cbn [snd]; now apply summary_rows_same].
Qed.
Lemma transform_all_same o (s t : St) X l : same s t -> transform_all w o s X l = transform_all w o t X l.
Proof.
  intros H. destruct (sm_vars _ _ H) as (_ & _ & G). induction l as [|i l IH]; cbn [transform_all]; [reflexivity|].
  rewrite IH. unfold transform_one. destruct (nth_error (po_names o) i) as [n|]; [|reflexivity]. now rewrite G.
Qed.
Lemma step_same o s t c : same s t ->
  snd (step w argsort (o, s) c) = snd (step w argsort (o, t) c) /\
  fst (fst (step w argsort (o, s) c)) = fst (fst (step w argsort (o, t) c)) /\
  same (snd (fst (step w argsort (o, s) c))) (snd (fst (step w argsort (o, t) c))).
Proof.
  intros H. destruct c; cbn [step].
  - pose proof (p_fit_same o s t X y sw H) as [A B]. destruct (p_fit w argsort o s X y sw), (p_fit w argsort o t X y sw). cbn in *. subst. auto.
  - pose proof (p_fit_disk_same o s t path file target H) as [A B].
    destruct (p_fit_disk w argsort o s path file target), (p_fit_disk w argsort o t path file target). cbn in *. subst. auto.
  - pose proof (p_fit_dict_same o s t l H) as [A B]. destruct (p_fit_dict w argsort o s l), (p_fit_dict w argsort o t l). cbn in *. subst. auto.
  - pose proof (p_update_same o s t n b H) as [A B]. destruct (p_update o s n b), (p_update o t n b). cbn in *. subst. auto.
  - pose proof (p_summary_same o s t H) as [A B]. destruct (p_summary w argsort o s), (p_summary w argsort o t). cbn in *. subst. auto.
  - cbn. split; [|auto]. f_equal. unfold p_information.
    now rewrite (sm_fitted _ _ H), (sm_support _ _ H), (sm_samples _ _ H), (sm_nvars _ _ H), (perm_count _ _ _ (deq_perm _ _ (sm_dtypes _ _ H))).
  - cbn. split; [|auto]. f_equal. unfold p_get. rewrite (sm_fitted _ _ H). destruct (sm_vars _ _ H) as (_ & _ & G). now rewrite G.
  - cbn. split; [|auto]. f_equal. unfold p_support. now rewrite (sm_fitted _ _ H), (sm_support _ _ H).
  - cbn. split; [|auto]. f_equal. unfold p_transform. rewrite (sm_fitted _ _ H), (sm_support _ _ H).
    destruct (negb (s_fitted t)); [reflexivity|]. destruct (s_support t) as [m|]; [|reflexivity]. destruct (negb (existsb _ m)); [reflexivity|].
    destruct X; rewrite (transform_all_same o s t _ _ H); reflexivity.
  - cbn. auto.
Qed.
Lemma run_same h : forall o s t, same s t -> snd (run w argsort (o, s) h) = snd (run w argsort (o, t) h).
Proof.
  induction h as [|c h IH]; intros o s t H; cbn [run]; [reflexivity|]. pose proof (step_same o s t c H) as (A & B & D).
  destruct (step w argsort (o, s) c) as [[o1 s1] a1], (step w argsort (o, t) c) as [[o2 s2] a2]. cbn in A, B, D. subst.
  specialize (IH o2 s1 s2 D). destruct (run w argsort (o2, s1) h), (run w argsort (o2, s2) h). cbn in *. now subst.
Qed.

(** ** what every history keeps *)
Record good (names : list name) (s : St) : Prop := mkGood {
  g_dtypes : NoDup (map fst (s_dtypes s)); g_vars : NoDup (map fst (s_vars s));
  g_dk : forall n, In n (map fst (s_dtypes s)) -> In n names; g_vk : forall n, In n (map fst (s_vars s)) -> In n names;
  g_stats : exists j, map fst (s_stats s) = firstn j names }.
Lemma good_new names : good names p_new.
Proof. constructor; cbn; try constructor; try (intros ? []). exists 0%nat. reflexivity. Qed.
Ltac good_tac H := destruct H as [? ? ? ? ?]; constructor; cbn; auto.
Definition keyed {A} (names : list name) (d : dict A) : Prop := NoDup (map fst d) /\ forall n, In n (map fst d) -> In n names.
Lemma keyed_dset {A} names (d : dict A) n v : In n names -> keyed names d -> keyed names (dset d n v).
Proof. intros Hn [A1 A2]. split; [now apply dset_nodup|]. intros m H. apply dset_keys in H. destruct H as [->|H]; auto. Qed.
Lemma fit_loop_keyed names o k y sw cols : (forall n, In n (map fst cols) -> In n names) -> forall d v, keyed names d -> keyed names v ->
  keyed names (fst (fst (fit_loop w o k y sw cols d v))) /\ keyed names (snd (fst (fit_loop w o k y sw cols d v))).
Proof.
  induction cols as [|[n c] cols IH]; intros Hn d v A B; cbn [fit_loop]; [auto|].
  destruct (rbind c _) as [[t b]|x]; [|auto]. apply IH; [intros m H; apply Hn; now right| |]; apply keyed_dset; auto; apply Hn; now left.
Qed.
Lemma good_vars names d v s : keyed names d -> keyed names v -> good names s -> good names (with_vars d v s).
Proof. intros [A1 A2] [B1 B2] H. good_tac H. Qed.
(** the statistics keep the order of the names *)
Lemma firstn_app_one {A} (l : list A) i x : nth_error l i = Some x -> firstn (S i) l = firstn i l ++ [x].
Proof. revert i; induction l as [|a l IH]; intros [|i] H; try discriminate; cbn in *; [now injection H as ->|]. f_equal. now apply IH. Qed.
Lemma stats_loop_keys k v names : NoDup names -> forall rest i d j,
  skipn i names = rest -> map fst d = firstn j names -> (i <= j)%nat ->
  let r := stats_loop w k v rest d in
  exists j', (j <= j')%nat /\ map fst (fst r) = firstn j' names /\ (snd r = Ok tt -> (i + List.length rest <= j')%nat).
Proof using w. clear argsort.
  intros ND rest. induction rest as [|n rest IH]; intros i d j E K L; cbn [stats_loop].
  - exists j. cbn. split; [lia|]. split; [exact K|]. intros _. lia.
  - destruct (obj_stats w k v n) as [s|e]; [|exists j; cbn; split; [lia|split; [exact K|discriminate]]].
    assert (Hn : nth_error names i = Some n).
    { clear -E. revert names E. induction i as [|i IH]; intros names E; destruct names as [|a names]; try discriminate.
      - now injection E as -> _. - cbn in *. now apply IH. }
    assert (E' : skipn (S i) names = rest).
    { clear -E. revert names E. induction i as [|i IH]; intros names E; destruct names as [|a names]; try discriminate.
      - now injection E as _ ->. - cbn [skipn] in *. now apply IH. }
    destruct (Nat.eq_dec i j) as [<-|Q].
    + assert (K' : map fst (dset d n (k, s)) = firstn (S i) names).
      { rewrite dset_key_list, K, (firstn_app_one _ _ _ Hn). destruct (zmem n (firstn i names)) eqn:Z; [|reflexivity].
        apply zmem_In in Z. exfalso. destruct (@In_nth_error name _ _ Z) as [m Hm].
        assert (Lm : (m < i)%nat). { assert (nth_error (firstn i names) m <> None) as X by congruence. apply nth_error_Some in X. rewrite firstn_length in X. lia. }
        assert (Hm2 : nth_error names m = Some n).
        { rewrite <- (firstn_skipn i names). rewrite nth_error_app1; [exact Hm|]. apply nth_error_Some. congruence. }
        assert (m = i). { apply (proj1 (NoDup_nth_error names) ND); [apply nth_error_Some; congruence|congruence]. } lia. }
      destruct (IH (S i) _ (S i) E' K' (le_n _)) as (j' & A & B & D). exists j'. split; [lia|]. split; [exact B|]. intros R. specialize (D R). cbn [List.length]. lia.
    + assert (K' : map fst (dset d n (k, s)) = firstn j names).
      { rewrite dset_key_list, K. destruct (zmem n (firstn j names)) eqn:Z; [reflexivity|]. apply zmem_not in Z. destruct Z.
        assert (nth_error (firstn j names) i = Some n) as X; [|eapply nth_error_In; exact X].
        assert (i < j)%nat as Lj by lia. clear -Hn Lj. revert i j Hn Lj. induction names as [|a l IH]; intros [|i] [|j] Hn Lj; try discriminate; try lia; cbn in *; [exact Hn|]. apply IH; [exact Hn|lia]. }
      destruct (IH (S i) _ j E' K' ltac:(lia)) as (j' & A & B & D). exists j'. split; [exact A|]. split; [exact B|]. intros R. specialize (D R). cbn [List.length]. lia.
Qed.
Lemma stats_loop_get k v names : forall d, snd (stats_loop w k v names d) = Ok tt -> NoDup names ->
  forall n, In n names -> exists s, obj_stats w k v n = Ok s /\ dget (fst (stats_loop w k v names d)) n = Some (k, s).
Proof using w. clear argsort.
  assert (K : forall names d n, ~ In n names -> dget (fst (stats_loop w k v names d)) n = dget d n).
  { intros l. induction l as [|a l IH]; intros d n H; cbn [stats_loop]; [reflexivity|]. destruct (obj_stats w k v a); [|reflexivity].
    rewrite IH by (intros X; apply H; now right). rewrite dget_dset. destruct (Z.eqb_spec a n) as [->|]; [destruct H; now left|reflexivity]. }
  induction names as [|a names IH]; intros d R N n H; [destruct H|]. cbn [stats_loop] in *. inversion N as [|? ? N1 N2]; subst.
  destruct (obj_stats w k v a) as [s|e] eqn:E; [|discriminate]. destruct H as [<-|H].
  - exists s. split; [exact E|]. rewrite (K names _ a N1), dget_dset, Z.eqb_refl. reflexivity.
  - apply IH; assumption.
Qed.
(** after a complete pass, the statistics are determined *)
Lemma stats_loop_full k v names d j : NoDup names -> map fst d = firstn j names -> snd (stats_loop w k v names d) = Ok tt ->
  map fst (fst (stats_loop w k v names d)) = names.
Proof using w. clear argsort.
  intros ND K R. destruct (stats_loop_keys k v names ND names 0%nat d j eq_refl K ltac:(lia)) as (j' & A & B & D).
  specialize (D R). rewrite B. apply firstn_all2. lia.
Qed.
Lemma stats_loop_result k v names d j : forall e i, NoDup names -> map fst d = firstn j names -> map fst e = firstn i names ->
  snd (stats_loop w k v names d) = snd (stats_loop w k v names e) /\
  (snd (stats_loop w k v names d) = Ok tt -> fst (stats_loop w k v names d) = fst (stats_loop w k v names e)).
Proof using w. clear argsort.
  intros e i ND K1 K2.
  assert (R : snd (stats_loop w k v names d) = snd (stats_loop w k v names e)).
  { clear K1 K2 ND. revert d e. induction names as [|a l IH]; intros d e; cbn [stats_loop]; [reflexivity|]. destruct (obj_stats w k v a); [apply IH|reflexivity]. }
  split; [exact R|]. intros H. assert (H2 := H). rewrite R in H2.
  pose proof (stats_loop_full k v names d j ND K1 H) as F1. pose proof (stats_loop_full k v names e i ND K2 H2) as F2.
  apply dict_ext; [rewrite F1; exact ND|congruence|]. intros n. destruct (in_dec Z.eq_dec n names) as [I|I].
  - destruct (stats_loop_get k v names d H ND n I) as (s & A & ->). destruct (stats_loop_get k v names e H2 ND n I) as (s2 & A2 & ->). congruence.
  - transitivity (@None (tkind * var_stats)); [apply dget_none; now rewrite F1|symmetry; apply dget_none; now rewrite F2].
Qed.
End Run.
