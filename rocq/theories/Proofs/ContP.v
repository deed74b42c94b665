From Coq Require Import List ZArith Bool Arith Lia ZifyBool ZifyNat Permutation Sorting QArith Qabs.
From Verif Require Import Model.Arr Model.Core Model.CP Model.Cont Spec.CoreSpec Spec.CPSpec Spec.CPFitSpec Spec.ContSpec
  Proofs.ArrP Proofs.CoreP Proofs.FitP Proofs.CoreFinal Proofs.CPP Proofs.CPC Proofs.CPTable Proofs.CPFinal.
Import ListNotations.
Open Scope Z_scope.

(** * Statistics of concatenated record lists *)
Definition row_of_list (l : list ksample) : trow :=
  let c := stat_of l in
  {| r_n := c_n c; r_sum := Some (c_sum c); r_zero := c_zero c; r_min := c_min c; r_max := c_max c;
     r_std := ByMoments (c_sum c) (c_ss c) (c_n c) |}.
(** accumulator holding the records [l] *)
Definition acc_of (l : list ksample) : cstat :=
  match l with [] => acc0 | _ => stat_of l end.

Lemma np_min_app a b : a <> [] -> b <> [] -> np_min (a ++ b) = Z.min (np_min a) (np_min b).
Proof.
  intros Ha Hb. induction a as [|x a IH]; [congruence|]. destruct a as [|y a].
  - cbn [app]. destruct b as [|z b]; [congruence|]. reflexivity.
  - change ((x :: y :: a) ++ b) with (x :: ((y :: a) ++ b)).
    change (np_min (x :: (y :: a) ++ b)) with (Z.min x (np_min ((y :: a) ++ b))).
    change (np_min (x :: y :: a)) with (Z.min x (np_min (y :: a))). rewrite IH by discriminate. lia.
Qed.
Lemma np_max_app a b : a <> [] -> b <> [] -> np_max (a ++ b) = Z.max (np_max a) (np_max b).
Proof.
  intros Ha Hb. induction a as [|x a IH]; [congruence|]. destruct a as [|y a].
  - cbn [app]. destruct b as [|z b]; [congruence|]. reflexivity.
  - change ((x :: y :: a) ++ b) with (x :: ((y :: a) ++ b)).
    change (np_max (x :: (y :: a) ++ b)) with (Z.max x (np_max ((y :: a) ++ b))).
    change (np_max (x :: y :: a)) with (Z.max x (np_max (y :: a))). rewrite IH by discriminate. lia.
Qed.
Lemma np_min_spec l : l <> [] -> is_min (np_min l) l.
Proof.
  unfold is_min. induction l as [|x [|y l] IH]; intros Hn; [congruence| |].
  - cbn. split; [now left|]. intros a [->|[]]; lia.
  - destruct (IH ltac:(discriminate)) as [H1 H2].
    change (np_min (x :: y :: l)) with (Z.min x (np_min (y :: l))). split.
    + destruct (Z.min_spec x (np_min (y :: l))) as [[_ ->]|[_ ->]]; [now left|now right].
    + intros a [->|Ha]; [lia|]. specialize (H2 a Ha). lia.
Qed.
Lemma np_max_spec l : l <> [] -> is_max (np_max l) l.
Proof.
  unfold is_max. induction l as [|x [|y l] IH]; intros Hn; [congruence| |].
  - cbn. split; [now left|]. intros a [->|[]]; lia.
  - destruct (IH ltac:(discriminate)) as [H1 H2].
    change (np_max (x :: y :: l)) with (Z.max x (np_max (y :: l))). split.
    + destruct (Z.max_spec x (np_max (y :: l))) as [[_ ->]|[_ ->]]; [now right|now left].
    + intros a [->|Ha]; [lia|]. specialize (H2 a Ha). lia.
Qed.

Lemma stat_app a b : a <> [] -> b <> [] -> stat_of (a ++ b) = acc_add (stat_of a) (stat_of b).
Proof.
  intros Ha Hb. unfold stat_of, acc_add. cbn [c_n c_sum c_ss c_zero c_min c_max].
  rewrite !map_app, !zsum_app, count_true_app.
  assert (Ha' : map s_p a <> []) by (destruct a; [congruence|discriminate]).
  assert (Hb' : map s_p b <> []) by (destruct b; [congruence|discriminate]).
  rewrite np_min_app, np_max_app by assumption.
  destruct (map s_p a) as [|u a'] eqn:Ea; [congruence|]. destruct (map s_p b) as [|v b'] eqn:Eb; [congruence|].
  cbn [app emin emax]. f_equal. lia.
Qed.
Lemma acc_add_of cur l : l <> [] -> acc_add (acc_of cur) (stat_of l) = acc_of (cur ++ l).
Proof.
  intros Hl. destruct cur as [|x cur].
  - cbn [app acc_of]. assert (E : acc_of l = stat_of l) by (destruct l; [congruence|reflexivity]). rewrite E.
    unfold acc_add, acc0, stat_of. cbn [c_n c_sum c_ss c_zero c_min c_max].
    destruct l as [|y l]; [congruence|]. cbn [map emin emax]. f_equal; lia.
  - change (acc_of ((x :: cur) ++ l)) with (stat_of ((x :: cur) ++ l)). rewrite (stat_app (x :: cur) l) by (auto; discriminate). reflexivity.
Qed.
Lemma row_acc_of cur l : l <> [] -> row_of_acc (acc_of cur) (stat_of l) = row_of_list (cur ++ l).
Proof.
  intros Hl. pose proof (acc_add_of cur l Hl) as E.
  assert (E2 : acc_of (cur ++ l) = stat_of (cur ++ l)) by (destruct cur; destruct l; try congruence; reflexivity).
  rewrite E2 in E. unfold row_of_list. rewrite <- E. unfold row_of_acc, acc_add. cbn [c_n c_sum c_ss c_zero c_min c_max].
  f_equal; try lia; f_equal; lia.
Qed.

Lemma NoDup_snoc (l : list nat) a : NoDup l -> ~ In a l -> NoDup (l ++ [a]).
Proof.
  intros H Ha. apply (Permutation_NoDup (l := a :: l)); [|now constructor].
  change (a :: l) with ([a] ++ l). apply Permutation_app_comm.
Qed.
(** * Merging *)
Fixpoint groupcat {A} (sol : list bool) (L : list (list A)) (cur : list A) : list (list A) :=
  match sol, L with
  | b :: s, l :: r => if b then (cur ++ l) :: groupcat s r [] else groupcat s r (cur ++ l)
  | _, _ => []
  end.
Lemma merge_stats_cat sol : forall L cur, length sol = length L -> (forall l, In l L -> l <> []) ->
  merge_stats (acc_of cur) sol (map stat_of L) = Some (map row_of_list (groupcat sol L cur)).
Proof.
  induction sol as [|b sol IH]; intros [|l L] cur Hl Hn; cbn in Hl; try lia; [reflexivity|].
  cbn [map merge_stats groupcat]. assert (Hl0 : l <> []) by (apply Hn; now left).
  destruct b.
  - change acc0 with (acc_of []). rewrite IH by (try lia; intros; apply Hn; now right).
    cbn [option_map map]. rewrite row_acc_of by exact Hl0. reflexivity.
  - rewrite acc_add_of by exact Hl0. apply IH; [lia|]. intros; apply Hn; now right.
Qed.

Lemma groupcat_map {A} sol (F : nat -> list A) : forall js cur,
  groupcat sol (map F js) (concat (map F cur)) = map (fun g => concat (map F g)) (groupcat sol (map (fun j => [j]) js) cur).
Proof.
  induction sol as [|b sol IH]; intros [|j js] cur; cbn [map groupcat]; try reflexivity.
  assert (E : concat (map F cur) ++ F j = concat (map F (cur ++ [j]))).
  { rewrite map_app, concat_app. cbn [map concat]. now rewrite app_nil_r. }
  destruct b.
  - cbn [map]. rewrite <- E. f_equal. apply (IH js []).
  - rewrite E. apply IH.
Qed.

Lemma groupidx_nth sol : forall m a cur k, length sol = m -> (k < count_true sol)%nat ->
  exists g, nth_error (groupcat sol (map (fun j => [j]) (seq a m)) cur) k = Some g /\
    (forall j, In j g <-> (k = 0%nat /\ In j cur) \/ ((a <= j < a + m)%nat /\ rank sol (j - a) = k)) /\
    (NoDup cur -> (forall j, In j cur -> (j < a)%nat) -> NoDup g).
Proof.
  induction sol as [|b sol IH]; intros m a cur k Hm Hk; [cbn in Hk; lia|].
  destruct m as [|m]; [cbn in Hm; lia|]. cbn [seq map groupcat count_true] in *.
  assert (Hrank : forall j, (S a <= j)%nat -> rank (b :: sol) (j - a) = ((if b then 1 else 0) + rank sol (j - S a))%nat).
  { intros j Hj. replace (j - a)%nat with (S (j - S a)) by lia. unfold rank. cbn. destruct b; reflexivity. }
  assert (Hr0 : rank (b :: sol) (a - a) = 0%nat) by (rewrite Nat.sub_diag; reflexivity).
  destruct b.
  - destruct k as [|k].
    + exists (cur ++ [a]). split; [reflexivity|]. split.
      * intros j. rewrite in_app_iff. cbn [In]. split.
        -- intros [H|[<-|[]]]; [left; auto|right]. split; [lia|exact Hr0].
        -- intros [[_ H]|[H1 H2]]; [now left|right; left].
           destruct (Nat.eq_dec j a) as [->|Hne]; [reflexivity|]. rewrite Hrank in H2 by lia. lia.
      * intros Hn Hlt. apply NoDup_snoc; [exact Hn|]. intros Hj. specialize (Hlt _ Hj). lia.
    + destruct (IH m (S a) [] k) as (g & E & Hin & Hnd); [cbn in Hm; lia|cbn in Hk; lia|].
      exists g. split; [exact E|]. split.
      * intros j. rewrite Hin. split.
        -- intros [[_ []]|[H1 H2]]. right. split; [lia|]. rewrite Hrank by lia. lia.
        -- intros [[H _]|[H1 H2]]; [lia|right].
           destruct (Nat.eq_dec j a) as [->|Hne]; [rewrite Hr0 in H2; lia|]. rewrite Hrank in H2 by lia. lia.
      * intros _ _. apply Hnd; [constructor|intros j []].
  - destruct (IH m (S a) (cur ++ [a]) k) as (g & E & Hin & Hnd); [cbn in Hm; lia|lia|].
    exists g. split; [exact E|]. split.
    + intros j. rewrite Hin, in_app_iff. cbn [In]. split.
      * intros [[H1 [H2|[<-|[]]]]|[H1 H2]]; [left; auto|right|right].
        -- split; [lia|]. rewrite Hr0. auto.
        -- split; [lia|]. rewrite Hrank by lia. exact H2.
      * intros [[H1 H2]|[H1 H2]]; [left; auto|].
        destruct (Nat.eq_dec j a) as [->|Hne]; [left; rewrite Hr0 in H2; auto|right].
        rewrite Hrank in H2 by lia. split; [lia|exact H2].
    + intros Hn Hlt. apply Hnd.
      * apply NoDup_snoc; [exact Hn|]. intros Hj. specialize (Hlt _ Hj). lia.
      * intros j Hj. apply in_app_iff in Hj. destruct Hj as [Hj|[<-|[]]]; [specialize (Hlt _ Hj)|]; lia.
Qed.

Lemma concat_by_key {A} (key : A -> nat) (data : list A) js : NoDup js ->
  Permutation (concat (map (fun j => filter (fun x => Nat.eqb (key x) j) data) js))
              (filter (fun x => existsb (Nat.eqb (key x)) js) data).
Proof.
  induction js as [|j js IH]; intros Hn; cbn [map concat existsb].
  - induction data; cbn; auto.
  - inversion Hn as [|? ? Hj Hn']; subst. rewrite (IH Hn'). clear IH.
    induction data as [|x data IHd]; [constructor|]. cbn [filter].
    destruct (Nat.eqb (key x) j) eqn:E.
    + assert (E2 : existsb (Nat.eqb (key x)) js = false).
      { apply not_true_is_false. intros H. apply existsb_exists in H. destruct H as (y & Hy & Heq).
        apply Nat.eqb_eq in E, Heq. congruence. }
      rewrite E2. cbn [orb app]. constructor. exact IHd.
    + cbn [orb]. destruct (existsb (Nat.eqb (key x)) js).
      * rewrite <- Permutation_middle. constructor. exact IHd.
      * exact IHd.
Qed.

(** merged rows are the statistics of the records of the merged bins *)
Lemma merge_stats_bins data splits sol rows :
  nondecreasing splits -> length sol = S (length splits) -> last sol false = true ->
  (forall i, (i < S (length splits))%nat -> bin_records splits data i <> []) ->
  merge_stats acc0 sol (stats splits data) = Some rows ->
  let so := select (init sol) splits in
  length rows = S (length so) /\
  forall k, (k <= length so)%nat -> exists l, nth_error rows k = Some (row_of_list l) /\ Permutation l (bin_records so data k).
Proof.
  intros Hs Hl Hlast Hne Hm so. unfold stats in Hm.
  assert (Hmm : map (fun i => stat_of (bin_records splits data i)) (seq 0 (S (length splits)))
     = map stat_of (map (bin_records splits data) (seq 0 (S (length splits))))) by (rewrite map_map; reflexivity).
  rewrite Hmm in Hm. change acc0 with (acc_of []) in Hm. rewrite merge_stats_cat in Hm.
  2:{ rewrite map_length, seq_length. exact Hl. }
  2:{ intros l Hin. apply in_map_iff in Hin. destruct Hin as (i & <- & Hi). apply in_seq in Hi. apply Hne. lia. }
  assert (Hm' : rows = map row_of_list (groupcat sol (map (bin_records splits data) (seq 0 (S (length splits)))) [])) by congruence.
  rewrite Hm'. clear Hm Hm' rows.
  assert (Hlen : count_true sol = S (length so)).
  { subst so. rewrite count_true_init by (destruct sol; [cbn in Hl; lia|discriminate] || assumption).
    rewrite length_select; [reflexivity|]. rewrite length_init. lia. }
  pose proof (groupcat_map sol (bin_records splits data) (seq 0 (S (length splits))) []) as GM.
  change (concat (map (bin_records splits data) [])) with (@nil ksample) in GM. rewrite GM, map_map.
  assert (Hg : forall k, (k < count_true sol)%nat -> _) by (intros k Hk; exact (groupidx_nth sol (S (length splits)) 0 [] k Hl Hk)).
  split.
  - rewrite map_length.
    assert (L : forall s (js : list nat) cur, length s = length js ->
       length (groupcat s (map (fun j => [j]) js) cur) = count_true s).
    { clear. induction s as [|b s IH]; intros [|j js] cur H; cbn in H; try lia; [reflexivity|].
      cbn [map groupcat count_true]. destruct b; cbn [length]; rewrite IH by lia; reflexivity. }
    rewrite L by (rewrite seq_length; exact Hl). exact Hlen.
  - intros k Hk. destruct (Hg k ltac:(lia)) as (g & E & Hin & Hnd).
    exists (concat (map (bin_records splits data) g)). split.
    + rewrite nth_error_map, E. reflexivity.
    + unfold bin_records at 1. rewrite (concat_by_key (fun s => digitize splits (s_x s))) by (apply Hnd; [constructor|intros j []]).
      unfold bin_records. erewrite filter_ext; [reflexivity|]. intros s. cbn beta.
      subst so. rewrite digitize_select; [|exact Hs|rewrite length_init; lia].
      pose proof (digitize_le splits (s_x s)) as Hd. rewrite last_init_firstn by lia.
      fold (rank sol (digitize splits (s_x s))).
      apply eq_true_iff_eq. rewrite existsb_exists, Nat.eqb_eq. split.
      * intros (j & Hj & Heq). apply Nat.eqb_eq in Heq. subst j. apply Hin in Hj. destruct Hj as [[_ []]|[_ Hj]].
        rewrite Nat.sub_0_r in Hj. exact Hj.
      * intros Hr. exists (digitize splits (s_x s)). split; [|apply Nat.eqb_refl]. apply Hin. right. rewrite Nat.sub_0_r. split; [lia|exact Hr].
Qed.

(** * Refinement *)
Definition remove_mask_c (data : list ksample) (splits : list Z) : list bool := map (fun c => c_n c =? 0) (stats splits data).
Lemma length_stats splits data : length (stats splits data) = S (length splits).
Proof. unfold stats. now rewrite map_length, seq_length. Qed.

Record refined_c (data : list ksample) (splits : list Z) (pb : cprebins) : Prop := {
  rc_sub : subseq (cp_splits pb) splits;
  rc_ne : cp_splits pb <> [];
  rc_stats : cp_stats pb = stats (cp_splits pb) data;
  rc_pos : forall c, In c (cp_stats pb) -> c_n c <> 0 }.

Lemma compute_prebins_c_step fuel data fixed user nref s r :
  compute_prebins_c (S fuel) data fixed user nref (s :: r) =
  let splits := s :: r in
  let ms := mask_splits (remove_mask_c data splits) in
  if any (remove_mask_c data splits) then
    match fixed with
    | Some f => if any (mand f ms) then Some (Err ValueError)
                else compute_prebins_c fuel data (Some (select (mnot ms) f))
                       (option_map (select (mnot ms)) user) (S nref) (select (mnot ms) splits)
    | None => compute_prebins_c fuel data None user (S nref) (select (mnot ms) splits)
    end
  else Some (Ok {| cp_splits := splits; cp_stats := stats splits data; cp_fixed := fixed; cp_user := user; cp_nref := nref |}).
Proof. reflexivity. Qed.

Lemma ms_shorter data s r : any (remove_mask_c data (s :: r)) = true ->
  (length (select (mnot (mask_splits (remove_mask_c data (s :: r)))) (s :: r)) < length (s :: r))%nat.
Proof.
  intros H. assert (L : length (remove_mask_c data (s :: r)) = S (length (s :: r)))
    by (unfold remove_mask_c; rewrite map_length; apply length_stats).
  apply select_mnot_shorter.
  - rewrite length_mask_splits by (rewrite L; cbn; lia). rewrite L. cbn. lia.
  - apply any_mask_splits; [rewrite L; cbn; lia|exact H].
Qed.

Lemma compute_prebins_c_terminates fuel data : forall fixed user nref splits, (length splits < fuel)%nat ->
  compute_prebins_c fuel data fixed user nref splits <> None.
Proof.
  induction fuel as [|fuel IH]; intros fixed user nref splits Hf; [lia|].
  destruct splits as [|s r]; [discriminate|]. rewrite compute_prebins_c_step. cbv zeta.
  destruct (any (remove_mask_c data (s :: r))) eqn:E; [|discriminate].
  pose proof (ms_shorter data s r E). destruct fixed as [f|].
  - destruct (any (mand f _)); [discriminate|]. apply IH. lia.
  - apply IH. lia.
Qed.

Lemma compute_prebins_c_refined fuel data : forall fixed user nref splits pb,
  compute_prebins_c fuel data fixed user nref splits = Some (Ok pb) -> refined_c data splits pb.
Proof.
  induction fuel as [|fuel IH]; intros fixed user nref splits pb H; [discriminate|].
  destruct splits as [|s r]; [discriminate|]. rewrite compute_prebins_c_step in H. cbv zeta in H.
  destruct (any (remove_mask_c data (s :: r))) eqn:E.
  - assert (G : forall fx us, compute_prebins_c fuel data fx us (S nref) (select (mnot (mask_splits (remove_mask_c data (s :: r)))) (s :: r)) = Some (Ok pb) ->
      refined_c data (s :: r) pb).
    { intros fx us H1. apply IH in H1. destruct H1 as [A B C D]. constructor; auto.
      eapply subseq_trans; [exact A|apply select_subseq]. }
    destruct fixed as [f|]; [destruct (any (mand f _)); [discriminate|]|]; eapply G; exact H.
  - injection H as <-. constructor; cbn [cp_splits cp_stats]; [apply subseq_refl|discriminate|reflexivity|].
    intros c Hc Hz. assert (In true (remove_mask_c data (s :: r))).
    { unfold remove_mask_c. apply in_map_iff. exists c. split; [lia|exact Hc]. }
    apply any_true_iff in H. congruence.
Qed.

(** a prebin of zero total weight may contain records of weight 0; with non-zero total it has records *)
Lemma stat_n_nonempty l : c_n (stat_of l) <> 0 -> l <> [].
Proof. intros H ->. cbn in H. lia. Qed.

(** * From the fit *)
Definition c_data (sp : special) (rs : list krec) : list ksample := map to_ksample (filter (k_clean sp) rs).

Lemma fit_cont_inv old solver sp fixed user splits0 rs f :
  fit_cont old solver sp fixed user splits0 rs = Some (Ok f) ->
  exists srows, special_rows sp (filter (k_special sp) rs) = Ok srows /\
  let data := c_data sp rs in let mrow := missing_row old (filter k_missing rs) in
  refine_c data fixed user splits0 = Some (Ok (cf_prebins f)) /\
  ((cp_splits (cf_prebins f) = [] /\ cp_stats (cf_prebins f) = [] /\ splits0 = [] /\ data <> [] /\
    cf_splits f = [] /\ cf_rows f = single_row data :: srows ++ [mrow]) \/
   (refined_c data splits0 (cf_prebins f) /\
    cf_solution f = solver (cp_stats (cf_prebins f)) /\
    cf_splits f = select (init (cf_solution f)) (cp_splits (cf_prebins f)) /\
    (cf_solution f <> [] -> exists rows, merge_stats acc0 (cf_solution f) (cp_stats (cf_prebins f)) = Some rows /\
      cf_rows f = rows ++ srows ++ [mrow]))).
Proof.
  intros H. unfold fit_cont in H.
  assert (H' : match special_rows sp (filter (k_special sp) rs) with
    | Err e => Some (Err e)
    | Ok srows =>
      let data := map to_ksample (filter (k_clean sp) rs) in
      let mrow := missing_row old (filter k_missing rs) in
      match refine_c data fixed user splits0 with
      | None => None
      | Some (Err e) => Some (Err e)
      | Some (Ok pb) =>
        let n := length (cp_stats pb) in
        let sol := if (n <=? 1)%nat then repeat false (length (cp_splits pb)) else solver (cp_stats pb) in
        let so := optimal_splits n (cp_splits pb) sol in
        match sol, data with
        | [], [] => Some (Err ValueError)
        | [], _ => Some (Ok {| cf_splits := so; cf_solution := sol;
                               cf_rows := single_row data :: srows ++ [mrow]; cf_prebins := pb |})
        | _, _ =>
          match merge_stats acc0 sol (cp_stats pb) with
          | None => Some (Err IndexError)
          | Some rows => Some (Ok {| cf_splits := so; cf_solution := sol; cf_rows := rows ++ srows ++ [mrow];
                                     cf_prebins := pb |})
          end
        end
      end
    end = Some (Ok f)).
  { destruct user as [[|u us]|]; [discriminate|exact H|exact H]. }
  clear H. destruct (special_rows sp _) as [srows|e]; [|discriminate]. exists srows. split; [reflexivity|].
  cbv zeta in *. unfold c_data. set (data := map to_ksample (filter (k_clean sp) rs)) in *.
  destruct (refine_c data fixed user splits0) as [[pb|e]|] eqn:Er; try discriminate.
  unfold refine_c in Er. destruct splits0 as [|s0 r0] eqn:Es0.
  - injection Er as <-. cbn [cp_stats cp_splits length Nat.leb repeat] in H'. unfold optimal_splits in H'. cbn [Nat.leb] in H'.
    destruct data as [|d ds] eqn:Ed; [discriminate|]. injection H' as <-. cbn [cf_prebins cf_splits cf_rows cp_splits cp_stats].
    split; [reflexivity|]. left. repeat split; auto. discriminate.
  - rewrite <- Es0 in *. pose proof (compute_prebins_c_refined _ _ _ _ _ _ _ Er) as R.
    assert (Hn : (length (cp_stats pb) <=? 1)%nat = false).
    { rewrite (rc_stats _ _ _ R), length_stats. pose proof (rc_ne _ _ _ R). destruct (cp_splits pb); [congruence|]. cbn; lia. }
    rewrite Hn in H'. unfold optimal_splits in H'. rewrite Hn in H'.
    destruct (solver (cp_stats pb)) as [|b sol] eqn:Esol.
    + destruct data; [discriminate|]. injection H' as <-. cbn [cf_prebins cf_splits cf_solution cf_rows].
      split; [reflexivity|]. right. split; [exact R|]. rewrite Esol. split; [reflexivity|]. split; [reflexivity|]. congruence.
    + destruct (merge_stats acc0 (b :: sol) (cp_stats pb)) as [rows|] eqn:Em; [|discriminate].
      injection H' as <-. cbn [cf_prebins cf_splits cf_solution cf_rows].
      split; [reflexivity|]. right. split; [exact R|]. rewrite Esol. split; [reflexivity|]. split; [reflexivity|]. intros _. exists rows. auto.
Qed.

(** bins nonempty *)
Lemma refined_bins data splits0 pb i : refined_c data splits0 pb -> (i < S (length (cp_splits pb)))%nat ->
  bin_records (cp_splits pb) data i <> [].
Proof.
  intros R Hi. apply stat_n_nonempty. apply (rc_pos _ _ _ R). rewrite (rc_stats _ _ _ R).
  unfold stats. apply in_map_iff. exists i. split; [reflexivity|]. apply in_seq. lia.
Qed.

Lemma fit_rows_records old solver sp fixed user splits0 rs f :
  nondecreasing splits0 -> c_solver_ok solver ->
  fit_cont old solver sp fixed user splits0 rs = Some (Ok f) ->
  nondecreasing (cf_splits f) /\
  (S (length (cf_splits f)) <= length (cf_rows f))%nat /\
  forall k, (k <= length (cf_splits f))%nat -> exists l r,
    nth_error (cf_rows f) k = Some r /\ Permutation l (bin_records (cf_splits f) (c_data sp rs) k) /\ l <> [] /\
    (r = row_of_list l \/ r = single_row l).
Proof.
  intros Hs Hok Hf. destruct (fit_cont_inv _ _ _ _ _ _ _ _ Hf) as (srows & Hsr & Href & [C|C]).
  - destruct C as (C1 & C2 & C3 & C4 & C5 & C6). rewrite C5, C6. split; [constructor|]. split; [cbn; lia|].
    intros k Hk. cbn in Hk. replace k with 0%nat by lia. exists (c_data sp rs), (single_row (c_data sp rs)).
    split; [reflexivity|]. split; [|split; [exact C4|now right]].
    unfold bin_records. cbn [digitize Nat.eqb].
    assert (Hid : forall l : list ksample, filter (fun _ => true) l = l) by (induction l; cbn; congruence). rewrite Hid. reflexivity.
  - destruct C as (R & Hsol & Hspl & Hrows).
    assert (Hn : nondecreasing (cp_splits (cf_prebins f))) by (eapply subseq_nondecr; [apply (rc_sub _ _ _ R)|exact Hs]).
    assert (Hlen : (2 <= length (cp_stats (cf_prebins f)))%nat).
    { rewrite (rc_stats _ _ _ R), length_stats. pose proof (rc_ne _ _ _ R). destruct (cp_splits (cf_prebins f)); [congruence|]. cbn; lia. }
    destruct (Hok _ Hlen) as [Hsl Hlast]. rewrite <- Hsol in Hsl, Hlast.
    rewrite (rc_stats _ _ _ R), length_stats in Hsl.
    destruct Hrows as (rows & Hm & Hr); [intros E; rewrite E in Hsl; cbn in Hsl; lia|].
    rewrite (rc_stats _ _ _ R) in Hm.
    destruct (merge_stats_bins _ _ _ _ Hn Hsl Hlast (fun i Hi => refined_bins _ _ _ i R Hi) Hm) as [HL HK].
    rewrite <- Hspl in HL, HK. rewrite Hr. split; [rewrite Hspl; now apply select_nondecr|].
    split; [rewrite app_length; lia|].
    intros k Hk. destruct (HK k Hk) as (l & E & P). exists l, (row_of_list l).
    split; [rewrite nth_error_app1 by lia; exact E|]. split; [exact P|]. split; [|now left].
    intros ->. apply Permutation_nil in P.
    assert (Hmm : In (row_of_list []) rows) by (eapply nth_error_In; eauto).
    (* a merged row has non-empty record list since each prebin has *)
    clear -P Hk Hspl Hsl Hlast R Hn.
    assert (exists i, (i < S (length (cp_splits (cf_prebins f))))%nat /\ rank (cf_solution f) i = k) as (i & Hi & Hri).
    { assert (Hc : (k < count_true (cf_solution f))%nat).
      { rewrite count_true_init by (destruct (cf_solution f); [cbn in Hsl; lia|discriminate] || assumption).
        rewrite Hspl, length_select in Hk; [lia|]. rewrite length_init. lia. }
      destruct (groupidx_nth (cf_solution f) (S (length (cp_splits (cf_prebins f)))) 0 [] k Hsl Hc) as (g & E & Hin & _).
      clear -Hsl Hc. revert k Hc. revert Hsl. generalize (S (length (cp_splits (cf_prebins f)))). generalize (cf_solution f).
      induction l as [|b s IH]; intros n Hl k Hc; [cbn in Hc; lia|]. destruct n; [cbn in Hl; lia|].
      destruct k as [|k]; [exists 0%nat; split; [lia|reflexivity]|].
      destruct b; cbn [count_true] in Hc.
      - destruct (IH n ltac:(cbn in Hl; lia) k ltac:(lia)) as (i & Hi & Hr). exists (S i). split; [lia|]. unfold rank in *. cbn. now rewrite Hr.
      - destruct (IH n ltac:(cbn in Hl; lia) (S k) ltac:(lia)) as (i & Hi & Hr). exists (S i). split; [lia|]. unfold rank in *. cbn. exact Hr. }
    apply (refined_bins _ _ _ i R Hi). unfold bin_records in *.
    destruct (filter (fun s => (digitize (cp_splits (cf_prebins f)) (s_x s) =? i)%nat) (c_data sp rs)) as [|x xs] eqn:Ex; [reflexivity|exfalso].
    assert (Hx : In x (x :: xs)) by now left. rewrite <- Ex in Hx. apply filter_In in Hx. destruct Hx as [Hx1 Hx2].
    apply Nat.eqb_eq in Hx2.
    assert (In x (filter (fun s => (digitize (cf_splits f) (s_x s) =? k)%nat) (c_data sp rs))).
    { apply filter_In. split; [exact Hx1|]. apply Nat.eqb_eq. rewrite Hspl.
      rewrite digitize_select; [|exact Hn|rewrite length_init; lia]. rewrite Hx2, last_init_firstn by lia. exact Hri. }
    rewrite P in H. destruct H.
Qed.
