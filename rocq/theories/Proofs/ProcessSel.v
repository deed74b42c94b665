From Coq Require Import List ZArith Bool Lia Permutation Sorting.
From Verif Require Import Model.Arr Model.Core Model.Process Spec.ProcessSpec Proofs.ArrP Proofs.ProcessP.
Import ListNotations.
Open Scope Z_scope.

Definition meetsb (c : crit) (v : Z) : bool :=
  match c_min c with Some m => m <=? v | None => true end && match c_max c with Some m => v <=? m | None => true end.
Lemma meetsb_iff c v : meetsb c v = true <-> meets c v.
Proof.
  unfold meetsb, meets. rewrite andb_true_iff. destruct (c_min c) as [a|]; destruct (c_max c) as [b|]; rewrite ?Z.leb_le;
    split; intros [H1 H2]; split; try reflexivity; try (intros m E; injection E as <-; assumption); try (intros m E; discriminate);
    try (now apply H1); try (now apply H2).
Qed.
(** the support after the bounds of a metric *)
Definition valid (vals : list Z) (c : crit) (sup : list bool) : list bool :=
  map2 (fun s v => s && meetsb c v) sup vals.
Lemma valid_eq vals c sup : length sup = length vals ->
  (let s := match c_min c with Some m => map2 andb sup (map (fun v => m <=? v) vals) | None => sup end in
   match c_max c with Some m => map2 andb s (map (fun v => v <=? m) vals) | None => s end) = valid vals c sup.
Proof.
  intros H. unfold valid, meetsb. revert vals H. induction sup as [|s sup IH]; intros [|v vals] H; try discriminate.
  - destruct (c_min c); destruct (c_max c); reflexivity.
  - injection H as H. specialize (IH vals H). cbv zeta in *. destruct (c_min c) as [a|]; destruct (c_max c) as [b|]; cbn [map map2] in *;
      (apply (f_equal2 cons); [|exact IH]); destruct s; rewrite ?andb_true_l, ?andb_true_r; reflexivity.
Qed.
Lemma nth_map2_d {A B C} (f : A -> B -> C) a b i da db dc : length a = length b -> (i < length a)%nat ->
  nth i (map2 f a b) dc = f (nth i a da) (nth i b db).
Proof.
  revert b i. induction a as [|x a IH]; intros [|y b] i H Hi; cbn [length] in *; try lia.
  destruct i; [reflexivity|]. cbn [map2 nth]. apply IH; lia.
Qed.
Lemma valid_nth vals c sup i : length sup = length vals ->
  nth i (valid vals c sup) false = true <-> nth i sup false = true /\ meets c (nth i vals 0).
Proof.
  intros H. unfold valid. destruct (Nat.lt_ge_cases i (length sup)) as [Hi|Hi].
  - rewrite (nth_map2_d _ _ _ _ false 0 false H Hi), andb_true_iff, meetsb_iff. reflexivity.
  - rewrite (nth_overflow (map2 _ _ _)) by (rewrite length_map2 by exact H; lia). rewrite (nth_overflow sup) by exact Hi.
    split; [discriminate|intros [? _]; discriminate].
Qed.
Lemma where_true_In l i : In i (where_true l) <-> nth i l false = true.
Proof.
  unfold where_true. rewrite filter_In, in_seq. split; [tauto|]. intros H. split; [|exact H].
  destruct (Nat.lt_ge_cases i (length l)); [lia|]. rewrite nth_overflow in H by assumption. discriminate.
Qed.
Lemma where_true_NoDup l : NoDup (where_true l).
Proof. apply NoDup_filter, seq_NoDup. Qed.
Lemma nth_seq_bool (f : nat -> bool) n i : nth i (map f (seq 0 n)) false = true <-> (i < n)%nat /\ f i = true.
Proof.
  destruct (Nat.lt_ge_cases i n) as [H|H].
  - rewrite (nth_indep _ false (f 0%nat)) by (rewrite map_length, seq_length; exact H). rewrite map_nth, seq_nth by exact H.
    cbn. tauto.
  - rewrite nth_overflow by (rewrite map_length, seq_length; lia). split; [discriminate|lia].
Qed.
Lemma StronglySorted_nth l : StronglySorted Z.le l -> forall i j, (i <= j < length l)%nat -> nth i l 0 <= nth j l 0.
Proof.
  induction 1 as [|x l Hs IH Hf]; intros i j Hij; cbn [length] in *; [lia|].
  destruct i; destruct j; cbn [nth]; try lia.
  - rewrite Forall_forall in Hf. apply Hf, nth_In. lia.
  - apply IH. lia.
Qed.
Lemma nth_firstn_lt {A} k a (l : list A) d : (a < k)%nat -> nth a (firstn k l) d = nth a l d.
Proof.
  revert a l. induction k as [|k IH]; intros a l H; [lia|]. destruct l as [|x l]; [reflexivity|].
  destruct a; [reflexivity|]. cbn [firstn nth]. apply IH. lia.
Qed.
(** the ranking step on an abstract list of valid positions *)
Lemma top_ranked argsort (iv : list nat) (key : nat -> Z) k : argsort_ok argsort -> NoDup iv -> (k <= length iv)%nat ->
  let chosen := map (fun j => nth j iv 0%nat) (firstn k (argsort (map key iv))) in
  NoDup chosen /\ length chosen = k /\ incl chosen iv /\
  (forall i j, In i iv -> ~ In i chosen -> In j chosen -> key j <= key i).
Proof.
  intros Ha Hn Hk chosen. destruct (Ha (map key iv)) as [Hp Hs]. rewrite map_length in Hp. set (o := argsort (map key iv)) in *.
  assert (Hlen : length o = length iv) by (rewrite (Permutation_length Hp); apply seq_length).
  assert (Hno : NoDup o) by (eapply Permutation_NoDup; [symmetry; exact Hp|apply seq_NoDup]).
  assert (Hb : forall x, In x o -> (x < length iv)%nat).
  { intros x Hx. apply (Permutation_in _ Hp) in Hx. apply in_seq in Hx. lia. }
  assert (Hfi : forall x, In x (firstn k o) -> In x o).
  { intros x Hx. rewrite <- (firstn_skipn k o). apply in_app_iff. now left. }
  split; [|split; [|split]].
  - unfold chosen. assert (Hnf : NoDup (firstn k o)).
    { rewrite <- (firstn_skipn k o) in Hno. clear - Hno. induction (firstn k o) as [|x l IH]; [constructor|].
      cbn [app] in Hno. inversion Hno; subst. constructor; [|now apply IH]. intros H. apply H1. apply in_app_iff. now left. }
    revert Hnf Hfi. generalize (firstn k o). intros l. induction l as [|x l IH]; intros Hnf Hf; cbn [map]; [constructor|].
    inversion Hnf; subst. constructor; [|apply IH; [assumption|intros; apply Hf; now right]].
    intros H. apply in_map_iff in H. destruct H as (y & E & Hy).
    assert (y = x); [|subst y; contradiction].
    apply (proj1 (NoDup_nth iv 0%nat) Hn); [apply Hb, Hf; now right|apply Hb, Hf; now left|exact E].
  - unfold chosen. rewrite map_length, firstn_length. lia.
  - intros x Hx. unfold chosen in Hx. apply in_map_iff in Hx. destruct Hx as (y & <- & Hy). apply nth_In, Hb, Hfi, Hy.
  - intros i j Hi Hni Hj. unfold chosen in Hj. apply in_map_iff in Hj. destruct Hj as (q & <- & Hq).
    destruct (In_nth iv i 0%nat Hi) as (p & Hp1 & Hp2).
    assert (Hpo : In p o). { apply (Permutation_in _ (Permutation_sym Hp)). apply in_seq. lia. }
    destruct (In_nth o p 0%nat Hpo) as (a & Ha1 & Ha2).
    destruct (In_nth _ q 0%nat Hq) as (b & Hb1 & Hb2). rewrite firstn_length in Hb1.
    assert (Hb2' : nth b o 0%nat = q) by (rewrite <- Hb2; symmetry; apply nth_firstn_lt; lia).
    destruct (Nat.lt_ge_cases a k) as [Hak|Hak].
    { exfalso. apply Hni. unfold chosen. apply in_map_iff. exists p. split; [exact Hp2|].
      rewrite <- Ha2, <- (nth_firstn_lt k a o 0%nat Hak). apply nth_In. rewrite firstn_length. lia. }
    pose proof (StronglySorted_nth _ Hs b a ltac:(rewrite map_length; lia)) as Hle.
    rewrite (nth_indep _ 0 (nth 0 (map key iv) 0)) in Hle by (rewrite map_length; lia).
    rewrite (nth_indep (map _ o) 0 (nth 0 (map key iv) 0)) in Hle at 1 by (rewrite map_length; lia).
    rewrite !(map_nth (fun i => nth i (map key iv) 0)) in Hle. rewrite Hb2', Ha2 in Hle.
    rewrite (nth_indep _ 0 (key 0%nat)) in Hle by (rewrite map_length; apply Hb; rewrite <- Hb2'; apply nth_In; lia).
    rewrite (nth_indep (map key iv) 0 (key 0%nat)) in Hle by (rewrite map_length; lia).
    rewrite !map_nth in Hle. rewrite Hp2 in Hle. exact Hle.
Qed.
Lemma same_elements_length (a b : list nat) : NoDup a -> NoDup b -> (forall x, In x a <-> In x b) -> length a = length b.
Proof. intros Ha Hb H. apply Nat.le_antisymm; apply NoDup_incl_length; try assumption; intros x Hx; now apply H. Qed.
Lemma valid_length vals c sup : length sup = length vals -> length (valid vals c sup) = length sup.
Proof. intros H. unfold valid. now apply length_map2. Qed.
Theorem crit_step_spec argsort vals c sup : argsort_ok argsort -> length sup = length vals ->
  let s' := crit_step argsort vals c sup in let v := valid vals c sup in
  length s' = length sup /\
  (forall i, nth i s' false = true -> nth i v false = true) /\
  match c_strategy c, c_top c with
  | Some h, Some t =>
      length (where_true s') = Nat.min (length (where_true v)) (top_number t (length (where_true v))) /\
      (forall i j, nth i v false = true -> nth i s' false = false -> nth j s' false = true ->
         at_least_as_good h (nth j vals 0) (nth i vals 0))
  | _, _ => s' = v
  end.
Proof.
  intros Ha H s' v. unfold s'. unfold crit_step. pose proof (valid_eq vals c sup H) as Hv. cbv zeta in Hv. cbv zeta. rewrite Hv.
  fold v. assert (Hvl : length v = length sup) by now apply valid_length.
  destruct (c_strategy c) as [h|]; [destruct (c_top c) as [t|]|]; try (split; [exact Hvl|split; [tauto|reflexivity]]).
  set (iv := where_true v). rewrite (map_length (fun i => nth i vals 0) iv). set (nv := length iv). set (k := Nat.min nv (top_number t nv)).
  set (key := fun i => if h then - nth i vals 0 else nth i vals 0).
  assert (Eo : (if h then argsort (map Z.opp (map (fun i => nth i vals 0) iv)) else argsort (map (fun i => nth i vals 0) iv))
    = argsort (map key iv)).
  { unfold key. destruct h; [now rewrite map_map|reflexivity]. }
  rewrite Eo. destruct (top_ranked argsort iv key k Ha (where_true_NoDup v) ltac:(unfold k, nv; lia)) as (C1 & C2 & C3 & C4).
  set (chosen := map (fun j => nth j iv 0%nat) (firstn k (argsort (map key iv)))) in *.
  set (w := map (fun i => nth i v false && existsb (Nat.eqb i) chosen) (seq 0 (length v))).
  assert (Hw : forall i, nth i w false = true <-> In i chosen).
  { intros i. unfold w. rewrite nth_seq_bool, andb_true_iff, existsb_exists. split.
    - intros (_ & _ & x & Hx & E). apply Nat.eqb_eq in E. now subst x.
    - intros Hi. pose proof (proj1 (where_true_In v i) (C3 i Hi)) as Hvi. split; [|split; [exact Hvi|exists i; split; [exact Hi|apply Nat.eqb_refl]]].
      destruct (Nat.lt_ge_cases i (length v)); [assumption|]. rewrite nth_overflow in Hvi by assumption. discriminate. }
  split; [unfold w; rewrite map_length, seq_length; exact Hvl|]. split.
  - intros i Hi. apply Hw in Hi. now apply where_true_In, C3.
  - split.
    + rewrite <- C2. apply same_elements_length; [apply where_true_NoDup|exact C1|]. intros x. rewrite where_true_In. apply Hw.
    + intros i j Hi Hni Hj. apply Hw in Hj. assert (Hn : ~ In i chosen) by (intros C; apply Hw in C; congruence).
      specialize (C4 i j (proj2 (where_true_In v i) Hi) Hn Hj). unfold key in C4. unfold at_least_as_good. destruct h; lia.
Qed.

Lemma where_true_len l : (length (where_true l) <= length l)%nat.
Proof.
  unfold where_true. rewrite <- (seq_length (length l) 0) at 2. generalize (seq 0 (length l)). intros s.
  induction s as [|i s IH]; cbn [filter length]; [lia|]. destruct (nth i l false); cbn [length]; lia.
Qed.
(** *** all metrics *)
Definition vals_of (n : nat) (crits : list (list Z * crit)) : Prop := forall vc, In vc crits -> length (fst vc) = n.
Lemma top_number_mono t a b : (a <= b)%nat -> (top_number t a <= top_number t b)%nat.
Proof.
  intros H. destruct t as [m|x y]; cbn [top_number]; [lia|]. destruct y; [reflexivity|]. apply Nat.div_le_mono; nia.
Qed.
Lemma where_true_le l l' : (forall i, nth i l false = true -> nth i l' false = true) ->
  (length (where_true l) <= length (where_true l'))%nat.
Proof.
  intros H. apply NoDup_incl_length; [apply where_true_NoDup|]. intros x Hx. apply where_true_In. apply H. now apply where_true_In.
Qed.
Theorem support_spec argsort n crits sup0 : argsort_ok argsort -> vals_of n crits -> length sup0 = n ->
  let s := fold_left (fun s vc => crit_step argsort (fst vc) (snd vc) s) crits sup0 in
  length s = n /\
  (forall i, nth i s false = true -> nth i sup0 false = true /\
     forall vc, In vc crits -> meets (snd vc) (nth i (fst vc) 0)) /\
  (forall vc h t, In vc crits -> ranked (snd vc) h t -> (length (where_true s) <= top_number t n)%nat) /\
  (forall i, nth i sup0 false = true -> nth i s false = false -> (forall vc, In vc crits -> meets (snd vc) (nth i (fst vc) 0)) ->
     exists vc h t, In vc crits /\ ranked (snd vc) h t /\
       forall j, nth j s false = true -> at_least_as_good h (nth j (fst vc) 0) (nth i (fst vc) 0)).
Proof.
  intros Ha. revert sup0. induction crits as [|[vals c] crits IH]; intros sup0 Hv Hl; cbn [fold_left].
  - split; [exact Hl|split; [|split]]; [intros i Hi; split; [exact Hi|intros vc []]|intros vc h t []|intros; congruence].
  - cbn [fst snd] in *. assert (Hvl : length vals = n) by (apply (Hv (vals, c)); now left).
    destruct (crit_step_spec argsort vals c sup0 Ha ltac:(lia)) as (S1 & S2 & S3).
    set (s1 := crit_step argsort vals c sup0) in *.
    destruct (IH s1 ltac:(intros vc Hvc; apply Hv; now right) ltac:(lia)) as (I1 & I2 & I3 & I4).
    set (s := fold_left _ crits s1) in *.
    assert (Hstep : forall i, nth i s false = true -> nth i s1 false = true) by (intros i Hi; now apply I2).
    split; [exact I1|split; [|split]].
    + intros i Hi. destruct (I2 i Hi) as [Hi1 Hm]. pose proof (S2 i Hi1) as Hval. apply valid_nth in Hval; [|lia].
      split; [tauto|]. intros vc [<-|Hvc]; [tauto|now apply Hm].
    + intros vc h t [<-|Hvc] Hr; [|now apply (I3 vc h t)]. destruct Hr as [R1 R2]. cbn [snd] in R1, R2. rewrite R1, R2 in S3.
      destruct S3 as [S3 _]. pose proof (where_true_le _ _ Hstep).
      assert (length (where_true (valid vals c sup0)) <= n)%nat.
      { pose proof (where_true_len (valid vals c sup0)) as W. rewrite (valid_length vals c sup0) in W; lia. }
      pose proof (top_number_mono t _ _ H0). lia.
    + intros i H0 Hi Hm. destruct (nth i s1 false) eqn:E1.
      * destruct (I4 i E1 Hi ltac:(intros; apply Hm; now right)) as (vc & h & t & Hvc & Hr & Hg).
        exists vc, h, t. split; [now right|split; assumption].
      * assert (Hval : nth i (valid vals c sup0) false = true).
        { apply valid_nth; [lia|]. split; [exact H0|]. apply (Hm (vals, c)). now left. }
        destruct (c_strategy c) as [h|] eqn:Es; [destruct (c_top c) as [t|] eqn:Et|]; try (rewrite S3 in E1; congruence).
        destruct S3 as [_ S3]. exists (vals, c), h, t. split; [now left|split; [split; assumption|]].
        intros j Hj. cbn [fst]. now apply S3; [| |apply Hstep].
Qed.
