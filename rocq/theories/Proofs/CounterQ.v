From Coq Require Import List ZArith Lia Bool Arith Reals Lra.
From Verif Require Import Model.Arr Model.Core Model.Cat Model.Metrics Model.Scorecard Model.Counterfactual Spec.CoreSpec Spec.ScoreSpec Spec.CounterfactualSpec
  Proofs.ArrP Proofs.MetricsP Proofs.MetricsQ Proofs.CounterP.
Import ListNotations.
Open Scope R_scope.

Lemma abs_split e a b : 0 <= a -> 0 <= b -> a - b = e -> Rabs e <= a + b.
Proof. intros. unfold Rabs. destruct Rcase_abs; lra. Qed.
Lemma pos_diff e : Rmax 0 e - Rmax 0 (- e) = e.
Proof. unfold Rmax. destruct (Rle_dec 0 e), (Rle_dec 0 (- e)); lra. Qed.
Lemma pos_sum e : Rmax 0 e + Rmax 0 (- e) = Rabs e.
Proof. unfold Rmax, Rabs. destruct (Rle_dec 0 e), (Rle_dec 0 (- e)), (Rcase_abs e); lra. Qed.
Lemma map2_nth {A B C} (f : A -> B -> C) a b i x y dflt : nth_error a i = Some x -> nth_error b i = Some y -> nth i (map2 f a b) dflt = f x y.
Proof. revert b i. induction a as [|u a IH]; intros [|v b] [|i] H1 H2; cbn in *; try discriminate; [now injection H1 as ->; injection H2 as ->|]. now apply IH. Qed.
Lemma count_map_filter {A} (f : A -> bool) l : count_true (map f l) = length (filter f l).
Proof. induction l as [|a l IH]; cbn; [reflexivity|]. destruct (f a); cbn; lia. Qed.
Lemma zsum_b2z f l : zsum (map (fun i : nat => b2z (f i)) l) = Z.of_nat (length (filter f l)).
Proof. induction l as [|a l IH]; cbn [map zsum filter]; [reflexivity|]. rewrite IH. destruct (f a); cbn [b2z length]; lia. Qed.
Lemma zsum_ext (f g : nat -> Z) l : (forall i, In i l -> f i = g i) -> zsum (map f l) = zsum (map g l).
Proof. intros H. f_equal. now apply map_ext_in. Qed.
Lemma in_seq0 i n : In i (seq 0 n) <-> (i < n)%nat.
Proof. rewrite in_seq. lia. Qed.

Section CF.
Variables (sm : bool) (vars : list svar) (x : list R) (ic : R) (wr : list R) (F : nat -> nat -> R) (mu : list R) (pw : list ((R * R) * (R * R))).
Hypothesis Hx : length x = length vars.
Hypothesis Hok : forall v, In v vars -> length (sv_metric v) = (n_bins_of v + n_special (sv_sp v) + 1)%nat.
Hypothesis Hsp : forall v, In v vars -> sm = true \/ n_special (sv_sp v) = 1%nat.
Let D := make_data sm vars x ic wr F mu pw.
Let p := length vars.

Lemma d_p_eq : d_p D = p.
Proof. unfold d_p, D, make_data. cbn. apply map_length. Qed.
Lemma cnd_at i v a : nth_error vars i = Some v -> nth_error x i = Some a -> cnd D i = candidates sm (sv_metric v) a /\ xi D i = a.
Proof.
  intros Hv Ha. unfold cnd, xi, D, make_data. cbn [d_cand d_x]. split; [now rewrite (map2_nth (fun v a => candidates sm (sv_metric v) a) vars x i v a [] Hv Ha)|]. now apply nth_error_nth.
Qed.
Lemma at_lt i : (i < p)%nat -> exists v a, nth_error vars i = Some v /\ nth_error x i = Some a.
Proof.
  intros H. destruct (nth_error vars i) as [v|] eqn:Ev; [|apply nth_error_None in Ev; unfold p in H; lia].
  destruct (nth_error x i) as [a|] eqn:Ea; [|apply nth_error_None in Ea; unfold p in H; lia]. eauto.
Qed.
Lemma cnd_ge i : (p <= i)%nat -> cnd D i = [].
Proof.
  intros H. unfold cnd. apply nth_overflow. unfold D, make_data. cbn. clear - H Hx. unfold p in *. revert x i H Hx. induction vars as [|v l IH]; intros [|a x'] i H Hx; cbn in *; try discriminate; try lia.
  destruct i as [|i]; [lia|]. specialize (IH x' i). lia.
Qed.
Lemma nrows_allowed v : In v vars -> nrows sm (sv_metric v) = if sm then length (sv_metric v) else n_bins_of v.
Proof. intros H. unfold nrows. destruct sm eqn:E; [reflexivity|]. destruct (Hsp v H) as [K|K]; [congruence|]. rewrite (Hok v H), K. lia. Qed.
Lemma cnd_nodup i : NoDup (map fst (cnd D i)).
Proof.
  destruct (Nat.lt_ge_cases i p) as [H|H]; [|rewrite cnd_ge by exact H; constructor]. destruct (at_lt i H) as (v & a & Hv & Ha).
  rewrite (proj1 (cnd_at i v a Hv Ha)). apply cand_nodup.
Qed.
Lemma cnd_row i v a j : nth_error vars i = Some v -> nth_error x i = Some a ->
  (row_allowed sm v a j <-> In (j, nth j (sv_metric v) 0) (cnd D i)).
Proof.
  intros Hv Ha. rewrite (proj1 (cnd_at i v a Hv Ha)), cand_in. unfold row_allowed. rewrite nrows_allowed by (eapply nth_error_In; eauto). tauto.
Qed.
Lemma value_at c i v a : nth_error vars i = Some v -> nth_error x i = Some a ->
  value_after (map sv_metric vars) x c i = match c i with Some j => nth j (sv_metric v) 0 | None => a end.
Proof.
  intros Hv Ha. unfold value_after. destruct (c i) as [j|].
  - rewrite (nth_indep _ [] (sv_metric v)) by (rewrite map_length; apply nth_error_Some; congruence).
    rewrite map_nth. now rewrite (nth_error_nth vars i v Hv).
  - now apply nth_error_nth.
Qed.
Lemma newx_shift z i : newx D z i = xi D i + shift_sum (xi D i) (cnd D i) (z i).
Proof. reflexivity. Qed.
Lemma moves_dec z i : moves_shown D z i = dec (cnd D i) (z i).
Proof. unfold moves_shown, shown_feature, dec, new_index. destruct (select (z i) (map fst (cnd D i))) as [|j [|k r]]; reflexivity. Qed.

Section Sound.
Variables (G : cfparams) (V : cfvars).
Hypothesis HC : c_changes G D V.
Let c := moves_shown D (v_z V).

Lemma z_ok i : (i < p)%nat -> length (v_z V i) = length (cnd D i) /\ (count_true (v_z V i) <= 1)%nat /\ v_a V i = Z.of_nat (count_true (v_z V i)).
Proof. intros H. destruct HC as (A & _ & _). rewrite <- d_p_eq in H. destruct (A i H) as (L & E & B). split; [exact L|]. split; [lia|exact E]. Qed.
Lemma sound_z i : (i < p)%nat -> v_z V i = enc (c i) (cnd D i).
Proof. intros H. destruct (z_ok i H) as (L & C & _). unfold c. rewrite moves_dec. apply z_enc; [apply cnd_nodup|exact L|exact C]. Qed.
Lemma sound_shown i : shown_feature D (v_z V) i = Ok (match c i with Some j => NewBin j | None => Kept end).
Proof.
  unfold c, moves_shown, shown_feature, new_index. destruct (Nat.lt_ge_cases i p) as [H|H].
  - destruct (z_ok i H) as (L & C & _). destruct (sel_spec 0 (cnd D i) (v_z V i) L C) as [(_ & -> & _)|(_ & j & m & _ & -> & _)]; reflexivity.
  - rewrite (cnd_ge i H). cbn [map]. destruct (v_z V i); reflexivity.
Qed.
Lemma sound_in i j : c i = Some j -> (i < p)%nat /\ In j (map fst (cnd D i)).
Proof.
  intros E. destruct (Nat.lt_ge_cases i p) as [H|H].
  - split; [exact H|]. destruct (z_ok i H) as (L & C & _). unfold c in E. rewrite moves_dec in E. unfold dec in E.
    destruct (sel_spec 0 (cnd D i) (v_z V i) L C) as [(_ & B & _)|(_ & j' & m & Hi & B & _)]; rewrite B in E; [discriminate|]. injection E as <-.
    apply in_map_iff. now exists (j', m).
  - exfalso. unfold c in E. rewrite moves_dec, (cnd_ge i H) in E. unfold dec in E. destruct (v_z V i); discriminate.
Qed.
Lemma sound_a i : (i < p)%nat -> v_a V i = b2z (changed c i).
Proof.
  intros H. destruct (z_ok i H) as (L & C & E). rewrite E. unfold changed, c. rewrite moves_dec. unfold dec.
  destruct (sel_spec 0 (cnd D i) (v_z V i) L C) as [(A & B & _)|(A & j & m & Hi & B & _)]; rewrite B, A; reflexivity.
Qed.
Lemma sound_newx i : (i < p)%nat -> newx D (v_z V) i = value_after (map sv_metric vars) x c i.
Proof.
  intros H. destruct (at_lt i H) as (v & a & Hv & Ha). rewrite newx_shift, (value_at c i v a Hv Ha).
  destruct (cnd_at i v a Hv Ha) as [Ec Ea]. rewrite Ea. destruct (z_ok i H) as (L & C & _). unfold c. rewrite moves_dec. unfold dec.
  destruct (sel_spec a (cnd D i) (v_z V i) L C) as [(_ & B & S)|(_ & j & m & Hi & B & S)]; rewrite B, S; [ring|].
  rewrite Ec in Hi. apply cand_in in Hi as (_ & -> & _). ring.
Qed.
Lemma sound_valid : valid_moves sm vars x (g_maxch G) (g_nonact G) c.
Proof.
  split.
  - intros i j E. destruct (sound_in i j E) as [H Hj]. split.
    + intros Hn. destruct HC as (_ & _ & N). specialize (N i Hn). rewrite (sound_a i H) in N. unfold changed in N. rewrite E in N. discriminate.
    + destruct (at_lt i H) as (v & a & Hv & Ha). exists v, a. split; [exact Hv|]. split; [exact Ha|]. apply (cnd_row i v a j Hv Ha).
      apply in_map_iff in Hj as ([j' m] & Ej & Hj). cbn in Ej. subst j'. rewrite (proj1 (cnd_at i v a Hv Ha)) in *. pose proof Hj as K. apply cand_in in K as (_ & -> & _). exact Hj.
  - destruct HC as (_ & B & _). rewrite d_p_eq in B. rewrite (zsum_ext _ (fun i => b2z (changed c i))) in B by (intros i Hi; apply in_seq0 in Hi; now apply sound_a).
    rewrite zsum_b2z in B. exact B.
Qed.
Lemma sound_cf_score : cf_score D (v_z V) = score_after vars x ic c.
Proof.
  unfold cf_score, score_after, sumn. rewrite d_p_eq. rewrite Rplus_comm. f_equal. apply rsum_ext. intros i Hi. apply in_seq0 in Hi. now rewrite sound_newx.
Qed.
Hypothesis HP : c_proximity D V.
Lemma sound_xp i : (i < p)%nat -> v_xp V i = value_after (map sv_metric vars) x c i.
Proof. intros H. rewrite <- sound_newx by exact H. rewrite <- d_p_eq in H. now destruct (HP i H) as (_ & _ & _ & ->). Qed.
Lemma sound_activation : activation D V = score_after vars x ic c.
Proof.
  unfold activation, score_after, sumn. rewrite d_p_eq. f_equal. apply rsum_ext. intros i Hi. apply in_seq0 in Hi. now rewrite sound_xp.
Qed.
End Sound.

(** ** lower bounds of the objectives *)
Section Bounds.
Variables (G : cfparams) (o : outcome) (K : nat) (S : cfsol).
Hypothesis Hf : feasible G D o K S.
Hypothesis Hp : g_prox G <> None.
Let cs := fun k => moves_shown D (v_z (s_V S k)).

Lemma feas_c k : (k < K)%nat -> c_changes G D (s_V S k) /\ c_proximity D (s_V S k) /\ (g_close G <> None -> c_closeness D (s_V S k)) /\ c_outcome G D o (s_V S k).
Proof. intros H. destruct Hf as [A _]. destruct (A k H) as (P & C & Ch & O). auto. Qed.
Lemma bound_prox : (forall w, In w wr -> 0 <= w) -> quantity D vars o K cs NProx <= obj D K S NProx.
Proof.
  intros Hw. cbn [quantity obj]. unfold sumn, l1. apply rsum_le. intros k Hk. apply in_seq0 in Hk. destruct (feas_c k Hk) as (C & P & _).
  rewrite d_p_eq. apply rsum_le. intros i Hi. apply in_seq0 in Hi.
  assert (W : 0 <= nth i (d_wr D) 0). { cbn. destruct (Nat.lt_ge_cases i (length wr)) as [L|L]; [apply Hw, nth_In, L|rewrite nth_overflow by exact L; lra]. }
  apply Rmult_le_compat_l; [exact W|]. rewrite <- d_p_eq in Hi. destruct (P i Hi) as (A & B & E & _). rewrite d_p_eq in Hi.
  apply abs_split; auto. rewrite E. rewrite (sound_xp G (s_V S k) C P i Hi). reflexivity.
Qed.
Lemma bound_close : g_close G <> None -> quantity D vars o K cs NClose <= obj D K S NClose.
Proof.
  intros Hc. cbn [quantity obj]. unfold sumn, mahalanobis. apply rsum_le. intros k Hk. apply in_seq0 in Hk. destruct (feas_c k Hk) as (C & P & Cl & _).
  rewrite d_p_eq. apply rsum_le. intros i Hi. apply in_seq0 in Hi. rewrite <- d_p_eq in Hi. destruct (Cl Hc i Hi) as (A & B & E).
  apply abs_split; auto. rewrite E. unfold maha. rewrite d_p_eq in *. apply rsum_ext. intros j Hj. apply in_seq in Hj.
  rewrite (sound_xp G (s_V S k) C P j); [reflexivity|lia].
Qed.
Lemma bound_diff y : o = OCont y -> g_diff G <> None -> quantity D vars o K cs NDiff <= obj D K S NDiff.
Proof.
  intros Ho Hd. cbn [quantity obj]. unfold sumn. apply rsum_le. intros k Hk. apply in_seq0 in Hk. destruct (feas_c k Hk) as (C & P & _ & O).
  rewrite Ho in O |- *. cbn in O. destruct O as (_ & _ & Q). destruct (Q Hd) as (A & B & E). cbn [desired]. apply abs_split; auto. rewrite E.
  rewrite (sound_activation G (s_V S k) C P). reflexivity.
Qed.
Lemma u_eq k l i : (k < l < K)%nat -> (i < p)%nat -> s_u S k l i = xorb (changed (cs k) i) (changed (cs l) i).
Proof.
  intros Hk Hi. destruct Hf as [_ Dv]. destruct (Dv k l Hk) as [A _]. rewrite <- d_p_eq in Hi. destruct (A i Hi) as (X & _). rewrite d_p_eq in Hi.
  destruct (feas_c k ltac:(lia)) as (Ck & _), (feas_c l ltac:(lia)) as (Cl & _).
  rewrite (sound_a G _ Ck i Hi), (sound_a G _ Cl i Hi) in X. now apply is_xor_bool in X.
Qed.
Lemma d_eq k l i : (k < l < K)%nat -> (i < p)%nat -> count_true (s_d S k l i) = values_apart1 (cs k i) (cs l i).
Proof.
  intros Hk Hi. destruct Hf as [_ Dv]. destruct (Dv k l Hk) as [A _]. rewrite <- d_p_eq in Hi. destruct (A i Hi) as (_ & L & X & _). rewrite d_p_eq in Hi.
  destruct (feas_c k ltac:(lia)) as (Ck & _), (feas_c l ltac:(lia)) as (Cl & _).
  assert (E : s_d S k l i = xorl (v_z (s_V S k) i) (v_z (s_V S l) i)).
  { destruct (z_ok G _ Ck i Hi) as (L1 & _), (z_ok G _ Cl i Hi) as (L2 & _). apply xorl_unique; [congruence|congruence|]. intros j Hj. apply is_xor_bool, X. lia. }
  rewrite E, (sound_z G _ Ck i Hi), (sound_z G _ Cl i Hi). apply xor_enc; [apply cnd_nodup| |]; intros j Hj; [eapply (sound_in G _ Ck)|eapply (sound_in G _ Cl)]; exact Hj.
Qed.
Lemma bound_divf : quantity D vars o K cs NDivF = obj D K S NDivF.
Proof.
  cbn [quantity obj]. unfold pairs_sum, sumn. f_equal. apply rsum_ext. intros k Hk. apply in_seq0 in Hk. apply rsum_ext. intros l Hl. apply in_seq in Hl.
  f_equal. rewrite d_p_eq, count_map_filter. unfold features_apart. f_equal. apply filter_ext_in. intros i Hi. apply in_seq0 in Hi. symmetry. apply u_eq; [lia|exact Hi].
Qed.
Lemma bound_divv : quantity D vars o K cs NDivV = obj D K S NDivV.
Proof.
  cbn [quantity obj]. unfold pairs_sum, sumn, values_apart. f_equal. apply rsum_ext. intros k Hk. apply in_seq0 in Hk. apply rsum_ext. intros l Hl. apply in_seq in Hl.
  rewrite d_p_eq. apply rsum_ext. intros i Hi. apply in_seq0 in Hi. f_equal. symmetry. apply d_eq; [lia|exact Hi].
Qed.
Lemma sound_diverse : diverse_moves (g_divf G) (g_divv G) p K cs.
Proof.
  intros k l Hk. destruct (proj2 Hf k l Hk) as [A B]. split.
  - intros Hd. specialize (B Hd). rewrite d_p_eq, count_map_filter in B. destruct (filter (s_u S k l) (seq 0 p)) as [|i r] eqn:E; [cbn in B; lia|].
    assert (Hi : In i (filter (s_u S k l) (seq 0 p))) by (rewrite E; now left). apply filter_In in Hi as [Hi U]. apply in_seq0 in Hi.
    exists i. split; [exact Hi|]. rewrite (u_eq k l i Hk Hi) in U. intros X. rewrite X, xorb_nilpotent in U. discriminate.
  - intros Hd i j j' Hi Ej Ej' ->. rewrite <- d_p_eq in Hi. destruct (A i Hi) as (_ & _ & _ & V). specialize (V Hd). rewrite d_p_eq in Hi.
    rewrite (d_eq k l i Hk Hi), Ej, Ej' in V. cbn [values_apart1] in V. rewrite Nat.eqb_refl in V.
    destruct (feas_c k ltac:(lia)) as (Ck & _), (feas_c l ltac:(lia)) as (Cl & _).
    rewrite (sound_a G _ Ck i Hi), (sound_a G _ Cl i Hi) in V. fold (cs k) (cs l) in V. unfold changed in V. rewrite Ej, Ej' in V. cbn in V. lia.
Qed.
Lemma sound_request : (forall y, o <> OProb y) -> request_met sm G D vars o K cs.
Proof.
  intros Ho. split; [|exact sound_diverse]. intros k Hk. destruct (feas_c k Hk) as (C & P & _ & O). split; [now apply (sound_valid G (s_V S k) C)|].
  change (score_after vars (d_x D) (d_int D) (cs k)) with (score_after vars x ic (moves_shown D (v_z (s_V S k)))).
  rewrite <- (sound_activation G (s_V S k) C P). destruct o as [[|]|y|y]; cbn in O |- *; [lra|exact O|exact I|]. destruct O as (A & B & _).
  split; intros H; [specialize (A H); lra|auto].
Qed.
End Bounds.

(** ** every request that can be met gives a feasible assignment with exactly these objectives *)
Section Complete.
Variables (G : cfparams) (o : outcome) (K : nat) (cs : nat -> moves).
Hypothesis Hr : request_met sm G D vars o K cs.
Hypothesis Hn : forall i, In i (g_nonact G) -> (i < p)%nat.
Hypothesis Ho : forall y, o <> OProb y.

Definition val (k : nat) := value_after (map sv_metric vars) x (cs k).
Definition build : cfsol :=
  {| s_V := fun k => {| v_xp := val k; v_tp := fun i => Rmax 0 (xi D i - val k i); v_tm := fun i => Rmax 0 (- (xi D i - val k i));
       v_mp := fun i => Rmax 0 (maha D (val k) i); v_mm := fun i => Rmax 0 (- maha D (val k) i);
       v_a := fun i => b2z (changed (cs k) i); v_z := fun i => enc (cs k i) (cnd D i);
       v_qp := Rmax 0 (score_after vars x ic (cs k) - desired o); v_qm := Rmax 0 (- (score_after vars x ic (cs k) - desired o));
       v_f := 0; v_h := fun _ => 0; v_s := fun _ => false |};
     s_u := fun k l i => xorb (changed (cs k) i) (changed (cs l) i);
     s_d := fun k l i => xorl (enc (cs k i) (cnd D i)) (enc (cs l i) (cnd D i)) |}.

Lemma cs_in k i j : (k < K)%nat -> cs k i = Some j -> exists m, In (j, m) (cnd D i) /\ m = val k i /\ (i < p)%nat.
Proof.
  intros Hk E. destruct Hr as [A _]. destruct (A k Hk) as [[B _] _]. destruct (B i j E) as (_ & v & a & Hv & Ha & Hrow).
  change (d_x D) with x in *. exists (nth j (sv_metric v) 0). split; [now apply (cnd_row i v a j Hv Ha)|]. split.
  - unfold val. rewrite (value_at (cs k) i v a Hv Ha), E. reflexivity.
  - apply nth_error_Some. unfold p. congruence.
Qed.
Lemma cs_in' k i j : (k < K)%nat -> cs k i = Some j -> In j (map fst (cnd D i)).
Proof. intros Hk E. destruct (cs_in k i j Hk E) as (m & H & _). apply in_map_iff. now exists (j, m). Qed.
Lemma build_count k i : (k < K)%nat -> count_true (enc (cs k i) (cnd D i)) = if changed (cs k) i then 1%nat else 0%nat.
Proof.
  intros Hk. unfold changed. destruct (cs k i) as [j|] eqn:E; [|apply enc_none]. destruct (cs_in k i j Hk E) as (m & H & _).
  exact (proj1 (enc_some j m 0 _ (cnd_nodup i) H)).
Qed.
Lemma build_newx k i : (k < K)%nat -> (i < p)%nat -> newx D (fun i => enc (cs k i) (cnd D i)) i = val k i.
Proof.
  intros Hk Hi. rewrite newx_shift. destruct (cs k i) as [j|] eqn:E.
  - destruct (cs_in k i j Hk E) as (m & H & -> & _). destruct (enc_some j _ (xi D i) _ (cnd_nodup i) H) as (_ & _ & ->). ring.
  - destruct (enc_none_sel (xi D i) (cnd D i)) as [_ ->]. unfold val. destruct (at_lt i Hi) as (v & a & Hv & Ha). rewrite (value_at _ i v a Hv Ha), E.
    rewrite (proj2 (cnd_at i v a Hv Ha)). ring.
Qed.
Lemma build_feasible : feasible G D o K build.
Proof.
  split.
  - intros k Hk. unfold feasible1, build. cbn [s_V]. split.
    { intros _ i Hi. cbn [v_tp v_tm v_xp v_z]. rewrite d_p_eq in Hi. split; [apply Rmax_l|]. split; [apply Rmax_l|]. split; [apply pos_diff|]. symmetry. now apply build_newx. }
    split. { intros _ i Hi. cbn [v_mp v_mm v_xp]. split; [apply Rmax_l|]. split; [apply Rmax_l|]. apply pos_diff. }
    split.
    { unfold c_changes. cbn [v_z v_a]. destruct Hr as [A _]. destruct (A k Hk) as [[B C] _]. split; [|split].
      - intros i Hi. rewrite build_count by exact Hk. split; [unfold enc; apply map_length|]. unfold changed. destruct (cs k i); cbn; split; lia.
      - rewrite d_p_eq, zsum_b2z. exact C.
      - intros i Hi. unfold changed. destruct (cs k i) as [j|] eqn:E; [|reflexivity]. exfalso. now apply (proj1 (B i j E)). }
    assert (Ea : activation D {| v_xp := val k; v_tp := fun i => Rmax 0 (xi D i - val k i); v_tm := fun i => Rmax 0 (- (xi D i - val k i));
       v_mp := fun i => Rmax 0 (maha D (val k) i); v_mm := fun i => Rmax 0 (- maha D (val k) i);
       v_a := fun i => b2z (changed (cs k) i); v_z := fun i => enc (cs k i) (cnd D i);
       v_qp := Rmax 0 (score_after vars x ic (cs k) - desired o); v_qm := Rmax 0 (- (score_after vars x ic (cs k) - desired o));
       v_f := 0; v_h := fun _ => 0; v_s := fun _ => false |} = score_after vars x ic (cs k)).
    { unfold activation, score_after, sumn. cbn [v_xp]. rewrite d_p_eq. reflexivity. }
    destruct Hr as [A _]. destruct (A k Hk) as [_ M]. change (d_x D) with x in M. change (d_int D) with ic in M.
    destruct o as [[|]|y|y]; cbn [c_outcome]; [rewrite Ea; cbn in M; lra|rewrite Ea; exact M|now destruct (Ho y)|].
    unfold c_target. rewrite Ea. cbn [v_qp v_qm desired] in *. cbn in M. destruct M as [M1 M2]. split; [intros H; specialize (M1 H); lra|]. split; [exact M2|].
    intros _. split; [apply Rmax_l|]. split; [apply Rmax_l|]. apply pos_diff.
  - intros k l Hk. unfold build. cbn [s_u s_d s_V v_a v_z]. assert (Hk1 : (k < K)%nat) by lia. assert (Hl1 : (l < K)%nat) by lia.
    assert (Le : forall c i, length (enc c (cnd D i)) = length (cnd D i)) by (intros; unfold enc; apply map_length).
    assert (Xe : forall i, count_true (xorl (enc (cs k i) (cnd D i)) (enc (cs l i) (cnd D i))) = values_apart1 (cs k i) (cs l i)).
    { intros i. apply xor_enc; [apply cnd_nodup| |]; intros j Hj; [now apply (cs_in' k)|now apply (cs_in' l)]. }
    destruct (proj2 Hr k l Hk) as [Df Dv]. split.
    + intros i Hi. split; [now apply is_xor_bool|]. split; [rewrite xorl_length; [apply Le|now rewrite !Le]|]. split.
      * intros j Hj. apply is_xor_bool. rewrite nth_xorl; [reflexivity|now rewrite !Le|now rewrite Le].
      * intros Hd. rewrite Xe. specialize (Dv Hd). unfold changed. destruct (cs k i) as [j|] eqn:E, (cs l i) as [j'|] eqn:E'; cbn [values_apart1 b2z]; try lia.
        rewrite d_p_eq in Hi. specialize (Dv i j j' Hi E E'). destruct (Nat.eqb j j') eqn:Q; [apply Nat.eqb_eq in Q; contradiction|lia].
    + intros Hd. destruct (Df Hd) as (i & Hi & Hne). rewrite count_map_filter, d_p_eq.
      assert (Hin : In i (filter (fun i => xorb (changed (cs k) i) (changed (cs l) i)) (seq 0 p))).
      { apply filter_In. split; [now apply in_seq0|]. destruct (changed (cs k) i), (changed (cs l) i); try reflexivity; now destruct Hne. }
      destruct (filter _ (seq 0 p)); [destruct Hin|cbn; lia].
Qed.
Lemma build_obj n : obj D K build n = quantity D vars o K cs n.
Proof.
  destruct n; cbn [obj quantity build s_V s_u s_d v_tp v_tm v_mp v_mm v_qp v_qm]; unfold sumn, pairs_sum, l1, mahalanobis, values_apart, sumn.
  - apply rsum_ext. intros k Hk. rewrite d_p_eq. apply rsum_ext. intros i Hi. rewrite pos_sum. reflexivity.
  - apply rsum_ext. intros k Hk. rewrite d_p_eq. apply rsum_ext. intros i Hi. rewrite pos_sum. unfold maha. rewrite d_p_eq. reflexivity.
  - apply rsum_ext. intros k Hk. rewrite pos_sum. reflexivity.
  - f_equal. apply rsum_ext. intros k Hk. apply rsum_ext. intros l Hl. rewrite d_p_eq, count_map_filter. reflexivity.
  - f_equal. apply rsum_ext. intros k Hk. apply rsum_ext. intros l Hl. apply in_seq0 in Hk. apply in_seq in Hl. rewrite d_p_eq. apply rsum_ext. intros i Hi. f_equal.
    apply xor_enc; [apply cnd_nodup| |]; intros j Hj; [now apply (cs_in' k)|apply (cs_in' l); [lia|exact Hj]].
Qed.
End Complete.
End CF.
