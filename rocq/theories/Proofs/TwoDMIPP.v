(** Lemmas for C68: two-dimensional binning with gamma and with solver="mip". *)
From Coq Require Import List ZArith QArith Lia Bool Arith Permutation Reals Lra.
From Verif Require Import Model.Arr Model.Core Model.Metrics Model.MIP Model.Scaled Model.TwoD Model.TwoDMIP Spec.CoreSpec Spec.TwoDSpec Spec.TwoDMIPSpec
  Proofs.ArrP Proofs.CoreP Proofs.MetricsP Proofs.TwoDP Proofs.TwoDQ Proofs.TwoDR Proofs.TwoDS Proofs.TwoDT Proofs.TwoDU Proofs.TwoDV.
Import ListNotations.
Open Scope Z_scope.

Lemma sel_at {A} (d : A) : forall sol (l : list A), length sol = length l -> forall i, (i < length l)%nat -> nth i sol false = true -> In (nth i l d) (select sol l).
Proof.
  induction sol as [|b sol IH]; intros [|a l] E [|i] Hi Hs; cbn in *; try lia.
  - subst b. now left.
  - specialize (IH l ltac:(lia) i ltac:(lia) Hs). destruct b; [now right|exact IH].
Qed.
Lemma sel_pos {A} (d : A) : forall sol (l : list A), length sol = length l -> forall a, In a (select sol l) -> exists i, (i < length l)%nat /\ nth i sol false = true /\ nth i l d = a.
Proof.
  induction sol as [|b sol IH]; intros [|x l] E a Ha; cbn [length] in *; try lia; try contradiction.
  cbn [select] in Ha. destruct b.
  - destruct Ha as [<-|Ha]; [exists 0%nat; cbn; repeat split; lia|]. destruct (IH l ltac:(lia) a Ha) as (i & H1 & H2 & H3). exists (S i). cbn. repeat split; auto; lia.
  - destruct (IH l ltac:(lia) a Ha) as (i & H1 & H2 & H3). exists (S i). cbn. repeat split; auto; lia.
Qed.
Lemma zs_nonneg l : (forall v, In v l -> 0 <= v) -> 0 <= zsum l /\ forall v, In v l -> v <= zsum l.
Proof.
  induction l as [|a l IH]; intros H; cbn [zsum]; [split; [lia|intros v []]|]. destruct (IH ltac:(intros; apply H; now right)) as [I1 I2].
  pose proof (H a (or_introl eq_refl)). split; [lia|]. intros v [<-|Hv]; [lia|]. specialize (I2 v Hv). lia.
Qed.
Lemma b2z_cases b : (b = true /\ b2z b = 1) \/ (b = false /\ b2z b = 0). Proof. destruct b; auto. Qed.

Lemma size_bounds_iff nrec sol pmin pmax : length sol = length nrec -> (forall v, In v nrec -> 0 <= v) ->
  size_bounds nrec sol pmin pmax <-> 0 <= pmin /\ pmin <= pmax /\ pmax <= zsum nrec /\ forall v, In v (select sol nrec) -> pmin <= v <= pmax.
Proof.
  intros E Hp. destruct (zs_nonneg nrec Hp) as [T0 T1]. unfold size_bounds. cbv zeta. split.
  - intros ([A1 A2] & [B1 B2] & C & H). repeat (split; [lia|]). intros v Hv. destruct (sel_pos 0 sol nrec E v Hv) as (i & Hi & Hs & <-).
    destruct (H i Hi) as [H1 H2]. unfold xv in H1, H2. rewrite Hs in H1, H2. cbn [b2z] in *. lia.
  - intros (A & B & C & H). split; [lia|]. split; [lia|]. split; [lia|]. intros i Hi. unfold xv.
    destruct (b2z_cases (nth i sol false)) as [[Hs ->]|[Hs ->]]; [|lia]. specialize (H _ (sel_at 0 sol nrec E i Hi Hs)). lia.
Qed.
Lemma spread_exists l : l <> [] -> exists s, is_spread l s.
Proof.
  induction l as [|a l IH]; [congruence|]. intros _. destruct l as [|b l].
  - exists 0, a, a. split; [now left|]. split; [now left|]. split; [intros v [<-|[]]; lia|lia].
  - destruct (IH ltac:(discriminate)) as (s & lo & hi & H1 & H2 & H3 & ->).
    exists (Z.max a hi - Z.min a lo), (Z.min a lo), (Z.max a hi). split; [|split; [|split; [|reflexivity]]].
    + destruct (Z.min_spec a lo) as [[_ ->]|[_ ->]]; [now left|now right].
    + destruct (Z.max_spec a hi) as [[_ ->]|[_ ->]]; [now right|now left].
    + intros v [<-|Hv]; [lia|]. specialize (H3 _ Hv). lia.
Qed.
Lemma spread_fun l s s' : is_spread l s -> is_spread l s' -> s = s'.
Proof. intros (a & b & A & B & H & ->) (a' & b' & A' & B' & H' & ->). pose proof (H a' A'). pose proof (H b' B'). pose proof (H' a A). pose proof (H' b B). lia. Qed.
Lemma spread_perm l l' s : Permutation l l' -> is_spread l s -> is_spread l' s.
Proof.
  intros P (a & b & A & B & H & ->). exists a, b. split; [eapply Permutation_in; eauto|]. split; [eapply Permutation_in; eauto|]. split; [|reflexivity].
  intros v Hv. apply H. eapply Permutation_in; [apply Permutation_sym; exact P|exact Hv].
Qed.
Lemma spread_tight nrec sol s : length sol = length nrec -> (forall v, In v nrec -> 0 <= v) -> is_spread (select sol nrec) s ->
  exists a b, size_bounds nrec sol a b /\ s = b - a.
Proof.
  intros E Hp (a & b & A & B & H & ->). exists a, b. split; [|reflexivity]. apply size_bounds_iff; auto.
  destruct (zs_nonneg nrec Hp) as [T0 T1]. pose proof (select_In' _ _ _ A) as IA. pose proof (select_In' _ _ _ B) as IB. pose proof (H a A).
  specialize (Hp a IA) as Ha. specialize (T1 b IB). do 3 (split; [lia|]). exact H.
Qed.
Lemma spread_le nrec sol s a b : length sol = length nrec -> (forall v, In v nrec -> 0 <= v) -> is_spread (select sol nrec) s -> size_bounds nrec sol a b -> s <= b - a.
Proof.
  intros E Hp (lo & hi & A & B & H & ->) HS. apply size_bounds_iff in HS; auto. destruct HS as (_ & _ & _ & HS). pose proof (HS _ A). pose proof (HS _ B). lia.
Qed.

(** ** values 0 / 1 of the mixed-integer model against Booleans *)
Section MIP.
Variables (xs : list R).
Hypothesis H01 : forall x, In x xs -> x = 0%R \/ x = 1%R.
Lemma mv_len : length (mip_vector xs) = length xs. Proof. unfold mip_vector. now rewrite map_length. Qed.
Lemma mv_nth i : nth i xs 0%R = IZR (xv (mip_vector xs) i).
Proof.
  unfold xv, mip_vector. destruct (Nat.lt_ge_cases i (length xs)) as [Hi|Hi].
  - rewrite (nth_indep _ false ((fun v => if Req_EM_T v 0 then false else true) 0%R)) by (now rewrite map_length).
    rewrite (map_nth (fun v => if Req_EM_T v 0 then false else true)). cbn beta.
    destruct (H01 _ (nth_In xs 0%R Hi)) as [E|E]; rewrite E; destruct (Req_EM_T _ 0) as [e|e]; cbn [b2z]; try reflexivity; lra.
  - rewrite !nth_overflow by (try rewrite map_length; lia). reflexivity.
Qed.
Lemma mv_sum l : xsumR xs l = IZR (xsum2 (mip_vector xs) l).
Proof. unfold xsumR, xsum2. induction l as [|i l IH]; cbn [map rsum zsum]; [reflexivity|]. rewrite plus_IZR, <- IH, <- mv_nth. reflexivity. Qed.
Lemma mv_unique k rows : unique_mip2 k rows xs <-> unique_assignment2 k rows (mip_vector xs).
Proof.
  split; intros H c Hc; specialize (H c Hc); rewrite ?mv_sum in *; [now apply eq_IZR|now rewrite H].
Qed.
Lemma mv_bins g k : bins_mip2 g k xs <-> min_max_bins2 g k (mip_vector xs).
Proof.
  unfold bins_mip2, min_max_bins2. cbv zeta. rewrite mv_sum. destruct (min_bins2 g) as [lo|], (max_bins2 g) as [hi|]; try tauto.
  - split.
    + intros (d & [D1 D2] & E). exists (hi - xsum2 (mip_vector xs) (seq 0 k)). rewrite minus_IZR in D2.
      assert (IZR (xsum2 (mip_vector xs) (seq 0 k)) <= IZR hi)%R as B1 by lra. assert (IZR lo <= IZR (xsum2 (mip_vector xs) (seq 0 k)))%R as B2 by lra.
      apply le_IZR in B1, B2. lia.
    + intros (d & [D1 D2] & E). exists (IZR d). assert (d = hi - xsum2 (mip_vector xs) (seq 0 k)) as -> by lia.
      split; [split; apply IZR_le; lia|]. rewrite minus_IZR. lra.
  - split; intros H; [apply Rge_le in H; now apply le_IZR|apply Rle_ge; now apply IZR_le].
  - split; intros H; [now apply le_IZR|now apply IZR_le].
Qed.
Lemma mv_mono tr md er k cn : mono_mip2 tr md er k cn xs <-> mono2 tr md er k cn (mip_vector xs).
Proof.
  unfold mono_mip2, mono2. destruct tr as [tr|]; [|tauto]. cbv zeta.
  assert (G : forall t, (xsumR xs (filter (bad tr md er t) (cn t)) <= INR (length (filter (bad tr md er t) (cn t))) * (1 - nth t xs 0))%R <->
     xsum2 (mip_vector xs) (filter (bad tr md er t) (cn t)) <= Z.of_nat (length (filter (bad tr md er t) (cn t))) * (1 - xv (mip_vector xs) t)).
  { intros t. rewrite mv_sum, mv_nth, INR_IZR_INZ, <- minus_IZR, <- mult_IZR. split; [apply le_IZR|apply IZR_le]. }
  split; intros H t Ht Hne; apply G; auto.
Qed.
Lemma mv_sizes nrec a b : length xs = length nrec -> (forall v, In v nrec -> 0 <= v) ->
  sizes_mip2 nrec xs a b <-> (0 <= a /\ a <= b /\ b <= IZR (zsum nrec) /\ forall v, In v (select (mip_vector xs) nrec) -> a <= IZR v <= b)%R.
Proof.
  intros E Hp. destruct (zs_nonneg nrec Hp) as [T0 T1]. apply IZR_le in T0. unfold sizes_mip2. cbv zeta.
  assert (E' : length (mip_vector xs) = length nrec) by (now rewrite mv_len). split.
  - intros ([A1 A2] & [B1 B2] & C & H). repeat (split; [lra|]). intros v Hv. destruct (sel_pos 0 _ nrec E' v Hv) as (i & Hi & Hs & <-).
    destruct (H i Hi) as [H1 H2]. rewrite mv_nth in H1, H2. unfold xv in H1, H2. rewrite Hs in H1, H2. cbn [b2z] in *. lra.
  - intros (A & B & C & H). split; [lra|]. split; [lra|]. split; [lra|]. intros i Hi. rewrite mv_nth. unfold xv.
    destruct (b2z_cases (nth i (mip_vector xs) false)) as [[Hs ->]|[Hs ->]]; [|lra]. specialize (H _ (sel_at 0 _ nrec E' i Hi Hs)). lra.
Qed.
End MIP.
(** Booleans as values *)
Definition as_values (sol : list bool) : list R := map (fun b : bool => if b then 1%R else 0%R) sol.
Lemma as_values_01 sol x : In x (as_values sol) -> x = 0%R \/ x = 1%R.
Proof. intros H. apply in_map_iff in H as (b & <- & _). destruct b; auto. Qed.
Lemma as_values_back sol : mip_vector (as_values sol) = sol.
Proof. unfold mip_vector, as_values. rewrite map_map. induction sol as [|b sol IH]; cbn [map]; [reflexivity|]. rewrite IH. f_equal. destruct b; match goal with |- context [Req_EM_T ?x ?y] => destruct (Req_EM_T x y) end; auto; lra. Qed.
Lemma as_values_len sol : length (as_values sol) = length sol. Proof. apply map_length. Qed.

Lemma mip2_base m n g gamma rd er nrec xs a b : feasible_mip2 m n g gamma rd er nrec xs a b -> feasible2 m n (no_gamma g) rd er nrec (mip_vector xs).
Proof.
  intros (HL & H01 & HU & HB & HX & HY & _). unfold feasible2. rewrite mv_len. split; [exact HL|].
  split; [now apply mv_unique|]. split; [now apply (mv_bins xs H01 g)|]. split; [now apply mv_mono|]. split; [now apply mv_mono|exact I].
Qed.
Lemma mip2_of_base m n g gamma rd er nrec sol a b : feasible2 m n (no_gamma g) rd er nrec sol -> (gamma <> 0%R -> sizes_mip2 nrec (as_values sol) a b) ->
  feasible_mip2 m n g gamma rd er nrec (as_values sol) a b.
Proof.
  intros (HL & HU & HB & HX & HY & _) HS. unfold feasible_mip2. rewrite as_values_len. split; [exact HL|]. split; [apply as_values_01|].
  pose proof (as_values_01 sol) as H01.
  split; [apply (mv_unique _ H01); now rewrite as_values_back|]. split; [apply (mv_bins _ H01); rewrite as_values_back; exact HB|].
  split; [apply (mv_mono _ H01); rewrite as_values_back; exact HX|]. split; [apply (mv_mono _ H01); rewrite as_values_back; exact HY|exact HS].
Qed.
Lemma sound_mip_cp g gamma solver : sound_mip2 g gamma solver -> sound_solver2 (no_gamma g) solver.
Proof. intros H m n rd er nrec sol E. destruct (H _ _ _ _ _ _ E) as (xs & a & b & HF & ->). eapply mip2_base; eauto. Qed.
Lemma objR_sum {A} (w : A -> R) : forall rs xs, (forall x, In x xs -> x = 0%R \/ x = 1%R) -> rsum (map2 Rmult (map w rs) xs) = rsum (map w (select (mip_vector xs) rs)).
Proof.
  induction rs as [|r rs IH]; intros [|x xs] H; cbn [map map2 rsum mip_vector select]; try reflexivity.
  fold (mip_vector xs). rewrite IH by (intros; apply H; now right). destruct (H x (or_introl eq_refl)) as [E|E]; rewrite E; destruct (Req_EM_T _ 0) as [e|e]; cbn [map rsum]; lra.
Qed.
Lemma ceil_close x : (x <= IZR (- Int_part (- x)) < x + 1)%R.
Proof. destruct (base_Int_part (- x)). rewrite opp_IZR. lra. Qed.
