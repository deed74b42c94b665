From Coq Require Import List ZArith Bool Lia.
From Verif Require Import Model.Arr Model.Core Model.Process Spec.ProcessSpec Proofs.ArrP.
Import ListNotations.
Open Scope Z_scope.

Lemma tv_final {A X Y} (tr : name -> targs A -> X -> Y) st params cell sel s :
  snd (transform_vars tr st params cell sel s) = final_args params sel s.
Proof.
  revert s. induction sel as [|n r IH]; intros s; [reflexivity|]. cbn [transform_vars]. unfold final_args. cbn [fold_left].
  specialize (IH (apply_params (params n) s)). destruct (transform_vars tr st params cell r _). exact IH.
Qed.
Lemma tv_nth {A X Y} (tr : name -> targs A -> X -> Y) st params cell sel s i n :
  nth_error sel i = Some n ->
  nth_error (fst (transform_vars tr st params cell sel s)) i
  = Some (st (tr n (final_args params (firstn (S i) sel) s) (cell n))).
Proof.
  revert s i. induction sel as [|m r IH]; intros s i E; [destruct i; discriminate|]. cbn [transform_vars].
  specialize (IH (apply_params (params m) s)). destruct (transform_vars tr st params cell r _) as [ys s''] eqn:Et. cbn [fst] in *.
  destruct i as [|i]; cbn [nth_error] in *.
  - injection E as ->. reflexivity.
  - now rewrite (IH i E).
Qed.
Lemma tv_length {A X Y} (tr : name -> targs A -> X -> Y) st params cell sel s :
  length (fst (transform_vars tr st params cell sel s)) = length sel.
Proof.
  revert s. induction sel as [|m r IH]; intros s; [reflexivity|]. cbn [transform_vars]. specialize (IH (apply_params (params m) s)).
  destruct (transform_vars tr st params cell r _). cbn [fst length] in *. now rewrite IH.
Qed.
(** [agree]: the state still has the call's value for every key without an entry *)
Definition agree {A} (p : tparams A) (a s : targs A) : Prop :=
  (tp_metric p = None -> ta_metric s = ta_metric a) /\ (tp_special p = None -> ta_special s = ta_special a) /\
  (tp_missing p = None -> ta_missing s = ta_missing a).
Lemma agree_local {A} (params : name -> tparams A) a s n : agree (params n) a s -> apply_params (params n) s = local_args params a n.
Proof.
  intros (H1 & H2 & H3). unfold apply_params, local_args, oget. destruct (tp_metric (params n)); destruct (tp_special (params n));
    destruct (tp_missing (params n)); f_equal; auto.
Qed.
Lemma agree_step {A} (p q : tparams A) a s : agree p a s -> agree q a s ->
  (tp_metric p <> None -> tp_metric q <> None) -> (tp_special p <> None -> tp_special q <> None) ->
  (tp_missing p <> None -> tp_missing q <> None) -> agree q a (apply_params p s).
Proof.
  intros (P1 & P2 & P3) (Q1 & Q2 & Q3) H1 H2 H3. unfold agree, apply_params, oget. cbn [ta_metric ta_special ta_missing].
  split; [|split]; intros E.
  - destruct (tp_metric p); [exfalso; now apply H1|now apply Q1].
  - destruct (tp_special p); [exfalso; now apply H2|now apply Q2].
  - destruct (tp_missing p); [exfalso; now apply H3|now apply Q3].
Qed.
Lemma tv_local {A X Y} (tr : name -> targs A -> X -> Y) st params cell sel a s :
  entries_stay params sel -> (forall n, In n sel -> agree (params n) a s) ->
  fst (transform_vars tr st params cell sel s) = map (fun n => st (tr n (local_args params a n) (cell n))) sel.
Proof.
  revert s. induction sel as [|n r IH]; intros s He Hs; [reflexivity|]. cbn [transform_vars map].
  assert (Hr : fst (transform_vars tr st params cell r (apply_params (params n) s))
               = map (fun n => st (tr n (local_args params a n) (cell n))) r).
  { apply IH.
    - intros i j x y Hij Ei Ej. apply (He (S i) (S j)); [lia|exact Ei|exact Ej].
    - intros m Hm. destruct (In_nth_error _ _ Hm) as (j & Ej). destruct (He 0%nat (S j) n m ltac:(lia) eq_refl Ej) as (H1 & H2 & H3).
      apply agree_step; try assumption; apply Hs; [now left|now right]. }
  destruct (transform_vars tr st params cell r _) as [ys s''] eqn:Et. cbn [fst] in *. rewrite Hr.
  rewrite (agree_local params a s n); [reflexivity|]. apply Hs. now left.
Qed.
Lemma same_keys_stay {A} (params : name -> tparams A) sel : same_keys params sel -> entries_stay params sel.
Proof. intros H i j a b _ Ea Eb. apply H; [now apply nth_error_In in Ea|now apply nth_error_In in Eb]. Qed.
Lemma agree_refl {A} (p : tparams A) a : agree p a a. Proof. now split; [|split]. Qed.
Lemma same_keys_final {A} (params : name -> tparams A) sel sub a s : same_keys params sel -> incl sub sel ->
  (forall n, In n sel -> agree (params n) a s) -> forall n, In n sel -> agree (params n) a (final_args params sub s).
Proof.
  intros Hk. revert s. induction sub as [|m r IH]; intros s Hi Hs n Hn; [now apply Hs|]. unfold final_args. cbn [fold_left].
  apply IH; [intros x Hx; apply Hi; now right| |exact Hn]. intros x Hx.
  destruct (Hk m x (Hi m (or_introl eq_refl)) Hx) as (H1 & H2 & H3). apply agree_step; try assumption; apply Hs; [apply Hi; now left|exact Hx].
Qed.
Lemma rows_local {A X Y} (tr : name -> targs A -> X -> Y) st params sel a s rows :
  entries_stay params sel -> (forall n, In n sel -> agree (params n) a s) ->
  transform_rows tr st params sel s rows = local_output tr st params sel a rows.
Proof. intros He Hs. apply map_ext. intros r. now apply tv_local. Qed.
Lemma chunks_local {A X Y} (tr : name -> targs A -> X -> Y) st params sel a s chunks :
  same_keys params sel -> (forall n, In n sel -> agree (params n) a s) ->
  transform_chunks tr st params sel s chunks = local_output tr st params sel a (concat chunks).
Proof.
  intros Hk. revert s. induction chunks as [|c r IH]; intros s Hs; [reflexivity|]. cbn [transform_chunks concat].
  rewrite (rows_local tr st params sel a s c (same_keys_stay _ _ Hk) Hs). rewrite IH.
  - unfold local_output. now rewrite map_app.
  - apply same_keys_final; [exact Hk|apply incl_refl|exact Hs].
Qed.
Lemma chunk_rows_concat {R} fuel size (rows : list R) : concat (chunk_rows fuel size rows) = rows.
Proof.
  revert rows. induction fuel as [|f IH]; intros [|x r]; try reflexivity.
  - cbn [chunk_rows concat]. now rewrite app_nil_r.
  - cbn [chunk_rows concat]. rewrite IH. apply firstn_skipn.
Qed.
Lemma chunk_rows_size {R} fuel size (rows : list R) c : (1 <= size)%nat -> (length rows <= fuel)%nat ->
  In c (chunk_rows fuel size rows) -> (length c <= size)%nat.
Proof.
  intros Hs. revert rows. induction fuel as [|f IH]; intros [|x r] Hl H; cbn [chunk_rows length In] in *; try contradiction; try lia.
  destruct H as [<-|H]; [rewrite firstn_length; lia|].
  apply (IH (skipn size (x :: r))); [rewrite skipn_length; cbn [length]; lia|exact H].
Qed.
