From Coq Require Import List ZArith Bool Lia Permutation Sorting.
From Verif Require Import Model.Arr Model.Core Model.Process Proofs.ArrP.
Import ListNotations.
Open Scope Z_scope.

(** *** dicts *)
Lemma dset_twice {V} (d : dict V) k v w : dset (dset d k v) k w = dset d k w.
Proof.
  induction d as [|[k' v'] d IH]; cbn [dset]; [now rewrite Z.eqb_refl|].
  destruct (Z.eqb_spec k' k); cbn [dset]; [now rewrite Z.eqb_refl|].
  destruct (Z.eqb_spec k' k); [contradiction|]. now rewrite IH.
Qed.
Lemma dset_keys {V} (d : dict V) k v x : In x (map fst (dset d k v)) <-> x = k \/ In x (map fst d).
Proof.
  induction d as [|[k' v'] d IH]; cbn [dset map fst In]; [intuition congruence|].
  destruct (Z.eqb_spec k' k) as [->|]; cbn [map fst In]; [intuition congruence|]. rewrite IH. intuition congruence.
Qed.
Lemma dset_nodup {V} (d : dict V) k v : NoDup (map fst d) -> NoDup (map fst (dset d k v)).
Proof.
  induction d as [|[k' v'] d IH]; cbn [dset map fst]; intros H; [repeat constructor; tauto|].
  inversion H; subst. destruct (Z.eqb_spec k' k) as [->|Hne]; cbn [map fst]; constructor; auto.
  rewrite dset_keys. intros [->|]; [easy|contradiction].
Qed.
(** assignments to different keys commute when the first key is already there *)
Lemma dset_comm {V} (d : dict V) k v k2 w : In k (map fst d) -> k2 <> k ->
  dset (dset d k2 w) k v = dset (dset d k v) k2 w.
Proof.
  induction d as [|[k' v'] d IH]; cbn [map fst In]; [tauto|]. intros H Hne. cbn [dset].
  destruct (Z.eqb_spec k' k2) as [->|]; cbn [dset].
  - destruct (Z.eqb_spec k2 k); [easy|]. cbn [dset]. now rewrite Z.eqb_refl.
  - destruct (Z.eqb_spec k' k) as [->|]; cbn [dset].
    + destruct (Z.eqb_spec k k2); [congruence|reflexivity].
    + destruct (Z.eqb_spec k' k2); [contradiction|]. rewrite IH; [reflexivity| |exact Hne]. destruct H; [contradiction|assumption].
Qed.
Lemma dupdate_dset_in {V} (e d : dict V) k v : In k (map fst d) -> ~ In k (map fst e) ->
  dupdate (dset d k v) e = dset (dupdate d e) k v.
Proof.
  revert d. induction e as [|[k2 w] e IH]; intros d Hd He; [reflexivity|].
  unfold dupdate in *. cbn [fold_left fst snd map In] in *.
  rewrite <- dset_comm by (try exact Hd; intros E; apply He; now left). rewrite IH; [reflexivity| |tauto].
  rewrite dset_keys. now right.
Qed.
Lemma dupdate_keys {V} (e d : dict V) x : In x (map fst (dupdate d e)) <-> In x (map fst d) \/ In x (map fst e).
Proof.
  revert d. induction e as [|[k v] e IH]; intros d; unfold dupdate in *; cbn [fold_left map fst In snd]; [tauto|].
  rewrite IH, dset_keys. intuition congruence.
Qed.
Lemma dupdate_dset {V} (e d : dict V) k v : NoDup (map fst e) -> dupdate d (dset e k v) = dset (dupdate d e) k v.
Proof.
  revert d. induction e as [|[k' v'] e IH]; intros d Hn; [reflexivity|]. cbn [dset]. inversion Hn as [|? ? Hk Hn']; subst.
  destruct (Z.eqb_spec k' k) as [->|].
  - unfold dupdate at 1 2. cbn [fold_left fst snd]. fold (dupdate (dset d k v) e) (dupdate (dset d k v') e).
    rewrite <- (dset_twice d k v' v). apply dupdate_dset_in; [|exact Hk]. rewrite dset_keys. now left.
  - unfold dupdate at 1 2. cbn [fold_left fst snd]. apply IH. exact Hn'.
Qed.

(** *** fit *)
Definition fit_ids {C V} (fitv : name -> C -> V) (X : frame C) (names : list name) (ids : list nat) (d : dict V) : dict V :=
  fold_left (fun d i => dset d (nth i names 0) (fitv (nth i names 0) (column X i (nth i names 0)))) ids d.
Lemma fit_seq_ids {C V} (fitv : name -> C -> V) X pre names d :
  fit_seq fitv X (length pre) names d = fit_ids fitv X (pre ++ names) (seq (length pre) (length names)) d.
Proof.
  revert pre d. induction names as [|n names IH]; intros pre d; [reflexivity|].
  cbn [fit_seq length seq]. unfold fit_ids. cbn [fold_left]. rewrite app_nth2, Nat.sub_diag by lia. cbn [nth].
  specialize (IH (pre ++ [n]) (dset d n (fitv n (column X (length pre) n)))).
  rewrite app_length in IH. cbn [length] in IH. rewrite Nat.add_1_r, <- app_assoc in IH. exact IH.
Qed.
Lemma fit_ids_nodup {C V} (fitv : name -> C -> V) X names ids (d : dict V) : NoDup (map fst d) ->
  NoDup (map fst (fit_ids fitv X names ids d)).
Proof.
  revert d. induction ids as [|i ids IH]; intros d H; [exact H|]. unfold fit_ids in *. cbn [fold_left]. apply IH. now apply dset_nodup.
Qed.
Lemma fit_ids_dset {C V} (fitv : name -> C -> V) X names ids i (d : dict V) :
  fit_ids fitv X names (ids ++ [i]) d = dset (fit_ids fitv X names ids d) (nth i names 0)
    (fitv (nth i names 0) (column X i (nth i names 0))).
Proof. unfold fit_ids. rewrite fold_left_app. reflexivity. Qed.
Lemma dupdate_block {C V} (fitv : name -> C -> V) X names ids (d : dict V) :
  dupdate d (fit_ids fitv X names ids []) = fit_ids fitv X names ids d.
Proof.
  induction ids as [|i ids IH] using rev_ind; [reflexivity|]. rewrite !fit_ids_dset, dupdate_dset.
  - now rewrite IH.
  - apply fit_ids_nodup. constructor.
Qed.
Lemma fit_blocks {C V} (fitv : name -> C -> V) X names blocks (d : dict V) :
  fold_left dupdate (map (fit_block fitv X names) blocks) d = fit_ids fitv X names (concat blocks) d.
Proof.
  revert d. induction blocks as [|b r IH]; intros d; [reflexivity|]. cbn [map fold_left concat].
  change (fit_block fitv X names b) with (fit_ids fitv X names b []). rewrite dupdate_block, IH.
  unfold fit_ids. now rewrite fold_left_app.
Qed.
Lemma split_sizes_concat l sizes : list_sum sizes = length l -> concat (split_sizes l sizes) = l.
Proof.
  revert l. induction sizes as [|s r IH]; intros l H; [destruct l; [reflexivity|discriminate]|].
  cbn [split_sizes concat]. change (list_sum (s :: r)) with (s + list_sum r)%nat in H. rewrite IH; [apply firstn_skipn|]. rewrite skipn_length. lia.
Qed.
Lemma list_sum_repeat a k : list_sum (repeat a k) = (k * a)%nat.
Proof. induction k; [reflexivity|]. change (list_sum (repeat a (S k))) with (a + list_sum (repeat a k))%nat. rewrite IHk. lia. Qed.
Lemma array_split_concat len n : (1 <= n)%nat -> concat (array_split len n) = seq 0 len.
Proof.
  intros H. unfold array_split. apply split_sizes_concat. rewrite list_sum_app, !list_sum_repeat, seq_length.
  assert (Hn : n <> 0%nat) by lia. pose proof (Nat.div_mod_eq len n) as E. pose proof (Nat.mod_upper_bound len n Hn) as B.
  set (q := Nat.div len n) in *. set (e := Nat.modulo len n) in *. nia.
Qed.
Theorem fit_par_seq {C V} (fitv : name -> C -> V) X names n_jobs (d : dict V) : (1 <= n_jobs)%nat ->
  fit_par fitv X names n_jobs d = fit_seq fitv X 0 names d.
Proof.
  intros H. unfold fit_par. rewrite fit_blocks, array_split_concat by exact H.
  symmetry. exact (fit_seq_ids fitv X [] names d).
Qed.
(** threads *)
Lemma set_at_length {B} (l : list B) k f : length (set_at l k f) = length l.
Proof. unfold set_at. rewrite length_map2 by now rewrite seq_length. apply seq_length. Qed.
Lemma map2_seq_map {B D} (g : B -> D) (f : B -> B) k a (l : list B) : (forall x, g (f x) = g x) ->
  map g (map2 (fun i x => if Nat.eqb i k then f x else x) (seq a (length l)) l) = map g l.
Proof.
  intros H. revert a. induction l as [|x l IH]; intros a; [reflexivity|]. cbn [length seq map2 map]. rewrite IH.
  f_equal. destruct (Nat.eqb a k); [apply H|reflexivity].
Qed.
Lemma step_inv {C V} (fitv : name -> C -> V) X names st :
  fit_ids fitv X names (fst (block_step fitv X names st)) (snd (block_step fitv X names st))
  = fit_ids fitv X names (fst st) (snd st).
Proof. destruct st as [[|i r] d]; reflexivity. Qed.
Lemma run_inv {C V} (fitv : name -> C -> V) X names sched (sts : list (list nat * dict V)) :
  map (fun st => fit_ids fitv X names (fst st) (snd st))
    (fold_left (fun sts b => set_at sts b (block_step fitv X names)) sched sts)
  = map (fun st => fit_ids fitv X names (fst st) (snd st)) sts.
Proof.
  revert sts. induction sched as [|b r IH]; intros sts; [reflexivity|]. cbn [fold_left]. rewrite IH.
  unfold set_at. apply map2_seq_map. intros st. apply step_inv.
Qed.
Theorem fit_threads_seq {C V} (fitv : name -> C -> V) X names n_jobs sched (d r : dict V) : (1 <= n_jobs)%nat ->
  fit_threads fitv X names n_jobs sched d = Some r -> r = fit_seq fitv X 0 names d.
Proof.
  intros Hn. unfold fit_threads. destruct (forallb _ _) eqn:E; [|discriminate]. intros H. injection H as <-.
  rewrite <- (fit_par_seq fitv X names n_jobs d Hn). unfold fit_par. f_equal.
  pose proof (run_inv fitv X names sched (map (fun ids => (ids, [])) (array_split (length names) n_jobs))) as R.
  fold (run_schedule fitv X names n_jobs sched) in R. rewrite map_map in R. cbn [fst snd] in R.
  unfold fit_block. unfold fit_ids in R at 2. rewrite <- R. apply map_ext_in. intros st Hin.
  rewrite forallb_forall in E. specialize (E st Hin). destruct st as [[|i l] e]; [reflexivity|discriminate].
Qed.
