(** Multiclass target: refinement, table columns, class rows. *)
From Coq Require Import List ZArith Bool Arith Lia Sorting.
From Verif Require Import Model.Arr Model.Core Model.CP Model.Multi Spec.CoreSpec Spec.CPSpec Spec.CPFitSpec Spec.MultiSpec
  Proofs.ArrP Proofs.CoreP Proofs.FitP Proofs.CoreFinal Proofs.CPP Proofs.CPC Proofs.CPTable Proofs.CPFinal.
Import ListNotations.
Open Scope Z_scope.

(** * np.unique *)
Lemma insert_unique_In z l a : In a (insert_unique z l) <-> a = z \/ In a l.
Proof.
  induction l as [|b l IH]; cbn [insert_unique In]; [intuition|].
  destruct (z <? b); [cbn [In]; intuition|]. destruct (Z.eqb_spec z b) as [->|]; [cbn [In]; intuition|].
  cbn [In]. rewrite IH. intuition.
Qed.
Lemma np_unique_In l a : In a (np_unique l) <-> In a l.
Proof. induction l as [|b l IH]; cbn; [tauto|]. rewrite insert_unique_In, IH. intuition. Qed.
Lemma insert_unique_sorted z l : increasing l -> increasing (insert_unique z l).
Proof.
  induction l as [|b l IH]; intros H; cbn [insert_unique]; [constructor; [constructor|constructor]|].
  pose proof (incr_inv _ _ H) as [Hl Hb].
  destruct (Z.ltb_spec z b) as [Hz|Hz].
  - constructor; [exact H|]. constructor; [exact Hz|]. apply Forall_forall. intros y Hy. specialize (Hb y Hy). lia.
  - destruct (Z.eqb_spec z b) as [->|Hne]; [exact H|].
    constructor; [now apply IH|]. apply Forall_forall. intros y Hy. apply insert_unique_In in Hy. destruct Hy as [->|Hy]; [lia|auto].
Qed.
Lemma np_unique_sorted l : increasing (np_unique l).
Proof. induction l as [|b l IH]; cbn; [constructor|]. now apply insert_unique_sorted. Qed.
Lemma increasing_NoDup l : increasing l -> NoDup l.
Proof.
  induction l as [|a l IH]; intros H; [constructor|]. apply incr_inv in H. destruct H as [Hl Ha].
  constructor; [|auto]. intros Hin. specialize (Ha a Hin). lia.
Qed.

(** * Refinement *)
Lemma length_mor a : forall b, length a = length b -> length (mor a b) = length a.
Proof. induction a as [|x a IH]; intros [|y b] H; cbn in *; try lia. rewrite IH; lia. Qed.
Lemma any_mor a : forall b, length a = length b -> any (mor a b) = any a || any b.
Proof.
  induction a as [|x a IH]; intros [|y b] H; cbn in *; try discriminate; [reflexivity|].
  fold (any a) (any b) (any (mor a b)). rewrite IH by lia. destruct x, y, (any a), (any b); reflexivity.
Qed.
Definition col_mask (c : list Z * list Z) : list bool := map2 (fun a b => (a =? 0) || (b =? 0)) (fst c) (snd c).
Lemma remove_mask_m_facts n cols : forall init, length init = n ->
  (forall c, In c cols -> length (fst c) = n /\ length (snd c) = n) ->
  let m := fold_left (fun m c => mor m (col_mask c)) cols init in
  length m = n /\ any m = any init || existsb (fun c => any (col_mask c)) cols.
Proof.
  induction cols as [|c cols IH]; intros init Hi Hc; cbn [fold_left existsb].
  - split; [exact Hi|]. now rewrite orb_false_r.
  - destruct (Hc c (or_introl eq_refl)) as [H1 H2].
    assert (Lc : length (col_mask c) = n) by (unfold col_mask; rewrite length_map2; lia).
    destruct (IH (mor init (col_mask c))) as [A B].
    + rewrite length_mor; lia.
    + intros c' Hc'. apply Hc. now right.
    + split; [exact A|]. rewrite B, any_mor by lia. now rewrite orb_assoc.
Qed.
Lemma remove_mask_m_len n cols : (forall c, In c cols -> length (fst c) = n /\ length (snd c) = n) ->
  length (remove_mask_m n cols) = n.
Proof. intros H. apply (remove_mask_m_facts n cols (repeat false n) (repeat_length _ _) H). Qed.
Lemma remove_mask_m_any n cols : (forall c, In c cols -> length (fst c) = n /\ length (snd c) = n) ->
  any (remove_mask_m n cols) = existsb (fun c => any (col_mask c)) cols.
Proof.
  intros H. destruct (remove_mask_m_facts n cols (repeat false n) (repeat_length _ _) H) as [_ E].
  unfold remove_mask_m. fold col_mask. etransitivity; [exact E|].
  replace (any (repeat false n)) with false; [reflexivity|].
  symmetry. apply any_false_iff. intros b Hb. now apply repeat_spec in Hb.
Qed.
Lemma class_cols_len splits classes data c : In c (class_cols splits classes data) ->
  length (fst c) = S (length splits) /\ length (snd c) = S (length splits).
Proof. unfold class_cols. intros H. apply in_map_iff in H. destruct H as (cl & <- & _). cbn [fst snd]. now rewrite !length_counts. Qed.
Lemma col_mask_false a : forall b, length a = length b -> any (col_mask (a, b)) = false ->
  forall v, In v a \/ In v b -> v <> 0.
Proof.
  induction a as [|x a IH]; intros [|y b] Hl H v Hv; cbn in Hl; try discriminate; [destruct Hv as [[]|[]]|].
  cbn in H. apply orb_false_iff in H. destruct H as [H1 H2]. apply orb_false_iff in H1. destruct H1 as [Hx Hy].
  cbn [In] in Hv. destruct Hv as [[<-|Hv]|[<-|Hv]]; try lia; eapply (IH b); eauto; lia.
Qed.

Record refined_m (classes : list Z) (data : list mrec) (splits : list Z) (pb : mprebins) : Prop := {
  rm_sub : subseq (mp_splits pb) splits;
  rm_cols : mp_splits pb <> [] -> mp_cols pb = class_cols (mp_splits pb) classes data;
  rm_nz : forall c v, In c (mp_cols pb) -> In v (fst c) \/ In v (snd c) -> v <> 0 }.

Lemma compute_prebins_m_step fuel classes data fixed user nref s r :
  compute_prebins_m (S fuel) classes data fixed user nref (s :: r) =
  let splits := s :: r in
  let mask := remove_mask_m (S (length splits)) (class_cols splits classes data) in
  let ms := mask_splits mask in
  if any mask then
    match fixed with
    | Some f => if any (mand f ms) then Some (Err ValueError)
                else compute_prebins_m fuel classes data (Some (select (mnot ms) f))
                       (option_map (select (mnot ms)) user) (S nref) (select (mnot ms) splits)
    | None => compute_prebins_m fuel classes data None user (S nref) (select (mnot ms) splits)
    end
  else Some (Ok {| mp_splits := splits; mp_cols := class_cols splits classes data; mp_fixed := fixed;
                   mp_user := user; mp_nref := nref |}).
Proof. reflexivity. Qed.
Lemma ms_shorter_m classes data s r :
  let mask := remove_mask_m (S (length (s :: r))) (class_cols (s :: r) classes data) in
  any mask = true -> (length (select (mnot (mask_splits mask)) (s :: r)) < length (s :: r))%nat.
Proof.
  intros mask H. assert (L : length mask = S (length (s :: r))) by (apply remove_mask_m_len; intros c; apply class_cols_len).
  apply select_mnot_shorter.
  - rewrite length_mask_splits by (rewrite L; cbn; lia). rewrite L. cbn. lia.
  - apply any_mask_splits; [rewrite L; cbn; lia|exact H].
Qed.
Lemma compute_prebins_m_terminates fuel classes data : forall fixed user nref splits, (length splits < fuel)%nat ->
  compute_prebins_m fuel classes data fixed user nref splits <> None.
Proof.
  induction fuel as [|fuel IH]; intros fixed user nref splits Hf; [lia|].
  destruct splits as [|s r]; [discriminate|]. rewrite compute_prebins_m_step. cbv zeta.
  match goal with |- context [if any ?m then _ else _] => destruct (any m) eqn:E end; [|discriminate].
  pose proof (ms_shorter_m classes data s r E). destruct fixed as [f|].
  - destruct (any (mand f _)); [discriminate|]. apply IH. lia.
  - apply IH. lia.
Qed.
Lemma compute_prebins_m_refined fuel classes data : forall fixed user nref splits pb,
  compute_prebins_m fuel classes data fixed user nref splits = Some (Ok pb) -> refined_m classes data splits pb.
Proof.
  induction fuel as [|fuel IH]; intros fixed user nref splits pb H; [discriminate|].
  destruct splits as [|s r].
  - injection H as <-. constructor; cbn [mp_splits mp_cols]; [constructor|congruence|intros c v []].
  - rewrite compute_prebins_m_step in H. cbv zeta in H.
    match type of H with context [if any ?m then _ else _] => destruct (any m) eqn:E end.
    + assert (G : forall fx us m, compute_prebins_m fuel classes data fx us (S nref) (select m (s :: r)) = Some (Ok pb) ->
        refined_m classes data (s :: r) pb).
      { intros fx us m H1. apply IH in H1. destruct H1 as [A B C]. constructor; auto.
        eapply subseq_trans; [exact A|apply select_subseq]. }
      destruct fixed as [f|]; [destruct (any (mand f _)); [discriminate|]|]; eapply G; exact H.
    + injection H as <-. constructor; cbn [mp_splits mp_cols]; [apply subseq_refl|reflexivity|].
      intros c v Hc Hv. rewrite remove_mask_m_any in E by (intros c'; apply class_cols_len).
      assert (Ec : any (col_mask c) = false).
      { destruct (any (col_mask c)) eqn:Ec; [|reflexivity]. rewrite <- E. symmetry. apply existsb_exists. eauto. }
      destruct (class_cols_len _ _ _ _ Hc) as [L1 L2]. destruct c as [a b]. cbn [fst snd] in *.
      eapply (col_mask_false a b); eauto; lia.
Qed.

(** * Inversion of the fit *)
Definition m_cleans sp rs := filter (m_clean sp) rs.
Definition m_label (r : mrec) : Z := match m_y r with Some y => y | None => 0 end.
Definition m_classes sp rs := np_unique (map m_label (m_cleans sp rs)).

Lemma all_some_nth {A} (l : list (option A)) : forall r, all_some l = Some r ->
  length r = length l /\ forall i a, nth_error r i = Some a -> nth_error l i = Some (Some a).
Proof.
  induction l as [|[a|] l IH]; intros r H; cbn in H; try discriminate.
  - injection H as <-. split; [reflexivity|]. intros [|i] a H; discriminate.
  - destruct (all_some l) as [r'|]; [|discriminate]. injection H as <-. destruct (IH r' eq_refl) as [L N].
    split; [cbn; now rewrite L|]. intros [|i] b Hb; cbn in *; [now injection Hb as ->|auto].
Qed.

(** class number c: prebin counts and the column built by the post-processing *)
Record multi_fit (solver : list (list Z * list Z) -> list bool) (sp : special) (splits0 : list Z) (rs : list mrec) (f : mfitted) : Prop := {
  mm_classes : mf_classes f = m_classes sp rs;
  mm_refined : refined_m (m_classes sp rs) (m_cleans sp rs) splits0 (mf_prebins f);
  mm_sol : mp_splits (mf_prebins f) <> [] ->
     mf_solution f = solver (mp_cols (mf_prebins f)) /\ mf_splits f = select (init (mf_solution f)) (mp_splits (mf_prebins f));
  mm_nil : mp_splits (mf_prebins f) = [] -> mf_splits f = [] /\ mf_solution f = [];
  mm_ncols : length (mf_cols f) = length (mf_classes f);
  mm_cols : forall c cl col, nth_error (mf_classes f) c = Some cl -> nth_error (mf_cols f) c = Some col ->
     exists n, multi_col (mf_solution f) n (special_col sp (filter (m_special sp) rs) cl) (class_count cl (filter m_missing rs)) = Some col /\
     match mp_splits (mf_prebins f) with
     | [] => n = [class_count cl (m_cleans sp rs)]
     | _ => nth_error (map snd (mp_cols (mf_prebins f))) c = Some n
     end }.

Lemma fit_multi_inv solver sp fixed user splits0 rs f :
  fit_multi solver sp fixed user splits0 rs = Some (Ok f) -> multi_fit solver sp splits0 rs f.
Proof.
  intros H. unfold fit_multi in H. fold m_label in H. fold (m_cleans sp rs) in H. fold (m_classes sp rs) in H.
  destruct (100 <? length (m_classes sp rs))%nat; [discriminate|].
  destruct (compute_prebins_m _ _ _ _ _ _ _) as [[pb|e]|] eqn:Ep; try discriminate.
  apply compute_prebins_m_refined in Ep.
  destruct (special_nonempty sp (m_classes sp rs)); [|discriminate].
  match type of H with context [all_some ?l] => destruct (all_some l) as [cols|] eqn:Ea end; [|discriminate].
  injection H as <-.
  destruct (all_some_nth _ _ Ea) as [L N].
  assert (Lev : length (match mp_splits pb with [] => map (fun cl => [class_count cl (m_cleans sp rs)]) (m_classes sp rs)
                        | _ => map snd (mp_cols pb) end) = length (m_classes sp rs)).
  { destruct (mp_splits pb) eqn:E; [now rewrite map_length|]. rewrite (rm_cols _ _ _ _ Ep) by congruence.
    rewrite E. unfold class_cols. now rewrite !map_length. }
  constructor; cbn [mf_classes mf_prebins mf_splits mf_solution mf_cols].
  - reflexivity.
  - exact Ep.
  - intros Hne. destruct (mp_splits pb); [congruence|]. split; reflexivity.
  - intros ->. split; reflexivity.
  - rewrite L, length_map2; [reflexivity|symmetry; exact Lev].
  - intros c cl col Hcl Hcol. specialize (N c col Hcol). rewrite map2_nth_error, Hcl in N.
    destruct (nth_error _ c) as [n|] eqn:En in N; [|discriminate]. injection N as N. exists n. split; [exact N|].
    destruct (mp_splits pb); [|exact En].
    rewrite nth_error_map, Hcl in En. cbn in En. now injection En as <-.
Qed.

(** * The table is exact *)
Lemma class_count_filter cl l : class_count cl l = Z.of_nat (length (filter (is_class cl) l)).
Proof. unfold class_count. now rewrite count_true_map_filter. Qed.
Lemma ovr_count cl data dig k : bin_count 1 dig false (one_vs_rest cl data) k
  = Z.of_nat (length (filter (fun r => is_class cl r && Nat.eqb (dig (num (m_x r))) k) data)).
Proof.
  unfold bin_count, trunc. rewrite Z.quot_1_r. unfold one_vs_rest. induction data as [|r l IH]; [reflexivity|].
  cbn [map filter c0 cx]. destruct (is_class cl r); cbn [negb Bool.eqb andb]; [|exact IH].
  destruct (Nat.eqb _ k); [|exact IH]. cbn [map zsum cw length]. rewrite IH. lia.
Qed.
Lemma ovr_count0 cl data dig k : bin_count 1 dig true (one_vs_rest cl data) k
  = Z.of_nat (length (filter (fun r => negb (is_class cl r) && Nat.eqb (dig (num (m_x r))) k) data)).
Proof.
  unfold bin_count, trunc. rewrite Z.quot_1_r. unfold one_vs_rest. induction data as [|r l IH]; [reflexivity|].
  cbn [map filter c0 cx]. destruct (is_class cl r); cbn [negb Bool.eqb andb]; [exact IH|].
  destruct (Nat.eqb _ k); [|exact IH]. cbn [map zsum cw length]. rewrite IH. lia.
Qed.

Definition clean_col (sp : special) (splits : list Z) (rs : list mrec) (cl : Z) : list Z :=
  counts 1 (digitize splits) false (one_vs_rest cl (m_cleans sp rs)) (S (length splits)).

Lemma nth_class_cols splits classes data c cl : nth_error classes c = Some cl ->
  nth_error (class_cols splits classes data) c =
  Some (counts 1 (digitize splits) true (one_vs_rest cl data) (S (length splits)),
        counts 1 (digitize splits) false (one_vs_rest cl data) (S (length splits))).
Proof. intros H. unfold class_cols. now rewrite nth_error_map, H. Qed.

Lemma multi_column solver sp splits0 rs f c cl : multi_fit solver sp splits0 rs f ->
  nondecreasing splits0 -> m_solver_ok solver -> nth_error (mf_classes f) c = Some cl ->
  nondecreasing (mf_splits f) /\
  nth_error (mf_cols f) c = Some (clean_col sp (mf_splits f) rs cl
     ++ special_col sp (filter (m_special sp) rs) cl ++ [class_count cl (filter m_missing rs)]).
Proof.
  intros F Hs Hok Hc.
  assert (Hnp : nondecreasing (mp_splits (mf_prebins f))) by (eapply subseq_nondecr; [apply (rm_sub _ _ _ _ (mm_refined _ _ _ _ _ F))|exact Hs]).
  assert (Hex : exists col, nth_error (mf_cols f) c = Some col).
  { destruct (nth_error (mf_cols f) c) as [col|] eqn:E; [eauto|]. apply nth_error_None in E. rewrite (mm_ncols _ _ _ _ _ F) in E.
    assert (c < length (mf_classes f))%nat by (apply nth_error_Some; congruence). lia. }
  destruct Hex as (col & Hcol). destruct (mm_cols _ _ _ _ _ F c cl col Hc Hcol) as (n & Hm & Hn).
  rewrite Hcol. destruct (mp_splits (mf_prebins f)) as [|s r] eqn:Esp.
  - destruct (mm_nil _ _ _ _ _ F Esp) as [E1 E2]. rewrite E1. split; [constructor|]. f_equal.
    subst n. rewrite E2 in Hm. cbn [multi_col option_map] in Hm. injection Hm as <-.
    unfold clean_col. cbn [length]. unfold counts. cbn [seq map app]. f_equal.
    rewrite ovr_count, class_count_filter. f_equal. f_equal. apply filter_ext. intros x. cbn. now rewrite andb_true_r.
  - destruct (mm_sol _ _ _ _ _ F) as [E1 E2]; [congruence|]. rewrite <- Esp in *.
    assert (Hne : mp_splits (mf_prebins f) <> []) by congruence.
    pose proof (rm_cols _ _ _ _ (mm_refined _ _ _ _ _ F) Hne) as Ecols.
    assert (Hc' : nth_error (m_classes sp rs) c = Some cl) by (rewrite <- (mm_classes _ _ _ _ _ F); exact Hc).
    destruct (Hok (mp_cols (mf_prebins f)) (S (length (mp_splits (mf_prebins f))))) as [Hl Hla].
    + rewrite Esp. cbn. lia.
    + intros E0. rewrite Ecols in E0. pose proof (nth_class_cols (mp_splits (mf_prebins f)) (m_classes sp rs) (m_cleans sp rs) c cl Hc') as X.
      rewrite E0 in X. destruct c; discriminate.
    + intros c' Hin. rewrite Ecols in Hin. now apply class_cols_len in Hin.
    + rewrite <- E1 in Hl, Hla.
      rewrite nth_error_map, Ecols, (nth_class_cols _ _ _ _ _ Hc') in Hn. rewrite Esp in Hn. rewrite <- Esp in Hn.
      cbn [option_map snd] in Hn.
      injection Hn as Hn. unfold multi_col in Hm. destruct (mf_solution f) as [|b sol0] eqn:Esol; [cbn in Hl; lia|]. rewrite <- Esol in *.
      rewrite <- Hn in Hm. rewrite merge_counts_digitize in Hm; [|exact Hnp|lia|exact Hla].
      cbn [option_map] in Hm. injection Hm as <-. rewrite E2. split; [now apply select_nondecr|reflexivity].
Qed.
