From Coq Require Import List ZArith QArith Lia Bool Arith Permutation.
From Verif Require Import Model.Arr Model.Core Model.TwoD Spec.CoreSpec Spec.TwoDSpec Proofs.ArrP Proofs.CoreP Proofs.TwoDP Proofs.TwoDQ Proofs.TwoDR Proofs.TwoDS Proofs.TwoDT.
Import ListNotations.
Open Scope nat_scope.

Lemma rect_dec (a b : rect) : {a = b} + {a <> b}.
Proof. decide equality; apply Nat.eq_dec. Qed.
Lemma NoDup_flat_map {A B} (f : A -> list B) l : NoDup l -> (forall a, In a l -> NoDup (f a)) ->
  (forall a a' b, In a l -> In a' l -> In b (f a) -> In b (f a') -> a = a') -> NoDup (flat_map f l).
Proof.
  induction 1 as [|a l Ha Hl IH]; intros Hf Hd; [constructor|]. cbn [flat_map].
  assert (IH' : NoDup (flat_map f l)).
  { apply IH; [intros; apply Hf; now right|]. intros a1 a2 b H1 H2. apply Hd; now right. }
  assert (D : forall b, In b (f a) -> ~ In b (flat_map f l)).
  { intros b Hb Hb'. apply in_flat_map in Hb' as (a' & Ha' & Hb'). assert (a = a') by (eapply Hd; eauto; [now left|now right]). subst. contradiction. }
  assert (Hfa := Hf a (or_introl eq_refl)). revert Hfa D. generalize (f a). intros k Hk D.
  induction Hk as [|b k Hb Hk IHk]; [exact IH'|]. cbn [app]. constructor.
  - rewrite in_app_iff. intros [H|H]; [contradiction|]. apply (D b); [now left|exact H].
  - apply IHk. intros c Hc. apply D. now right.
Qed.
Lemma all_rects_NoDup m n : NoDup (all_rects m n).
Proof.
  unfold all_rects. apply NoDup_flat_map; [apply seq_NoDup| |].
  - intros i _. apply NoDup_flat_map; [apply seq_NoDup| |].
    + intros j _. apply NoDup_flat_map; [apply seq_NoDup| |].
      * intros k _. apply FinFun.Injective_map_NoDup; [|apply seq_NoDup]. intros a b E. now injection E.
      * intros k k' b _ _ H1 H2. apply in_map_iff in H1 as (l & <- & _), H2 as (l' & E & _). now injection E.
    + intros j j' b _ _ H1 H2. apply in_flat_map in H1 as (k & _ & H1), H2 as (k' & _ & H2).
      apply in_map_iff in H1 as (l & <- & _), H2 as (l' & E & _). now injection E.
  - intros i i' b _ _ H1 H2. apply in_flat_map in H1 as (j & _ & H1), H2 as (j' & _ & H2).
    apply in_flat_map in H1 as (k & _ & H1), H2 as (k' & _ & H2).
    apply in_map_iff in H1 as (l & <- & _), H2 as (l' & E & _). now injection E.
Qed.
Lemma rects_of_NoDup m n ok : NoDup (rects_of m n ok).
Proof. apply NoDup_filter, all_rects_NoDup. Qed.
Lemma tiling_NoDup m n ts : tiling m n ts -> NoDup ts.
Proof.
  intros [Hok Hcov]. apply NoDup_nth_error. intros i j Hi E. destruct (nth_error ts i) as [r|] eqn:Er; [|apply nth_error_None in Er; lia].
  pose proof (Hok r (nth_error_In _ _ Er)) as (Hk & Hl & Hm & Hn).
  destruct (Hcov (r_i r) (r_j r) ltac:(lia) ltac:(lia)) as (b & r0 & _ & _ & Hu).
  assert (Hin : in_rect r (r_i r) (r_j r)) by (split; lia).
  rewrite (Hu i r Er Hin). symmetry in E. now rewrite (Hu j r E Hin).
Qed.
Lemma tiling_perm m n ts ts' : Permutation ts ts' -> tiling m n ts -> tiling m n ts'.
Proof.
  intros HP HT. pose proof (tiling_NoDup m n ts HT) as Hnd. destruct HT as [Hok Hcov].
  assert (Hnd' : NoDup ts') by (eapply Permutation_NoDup; eauto). split.
  - intros r Hr. apply Hok. eapply Permutation_in; [apply Permutation_sym; exact HP|exact Hr].
  - intros y x Hy Hx. destruct (Hcov y x Hy Hx) as (b & r & Hb & Hin & Hu).
    assert (Hr : In r ts') by (eapply Permutation_in; [exact HP|eapply nth_error_In; eauto]).
    apply In_nth_error in Hr as (b' & Hb'). exists b', r. split; [exact Hb'|]. split; [exact Hin|].
    intros b2 r2 Hb2 Hin2. assert (Hr2 : In r2 ts) by (eapply Permutation_in; [apply Permutation_sym; exact HP|eapply nth_error_In; eauto]).
    apply In_nth_error in Hr2 as (b3 & Hb3). rewrite (Hu b3 r2 Hb3 Hin2) in Hb3. rewrite Hb in Hb3. injection Hb3 as <-.
    apply (proj1 (NoDup_nth_error ts') Hnd'); [apply nth_error_Some; congruence|]. congruence.
Qed.
(** tilings as sets: a cell lies in one rectangle only *)
Lemma tiling_unique m n ts r r' y x : tiling m n ts -> y < m -> x < n -> In r ts -> In r' ts -> in_rect r y x -> in_rect r' y x -> r = r'.
Proof.
  intros [_ Hcov] Hy Hx Hr Hr' H H'. destruct (Hcov y x Hy Hx) as (b & r0 & _ & _ & Hu).
  apply In_nth_error in Hr as (i & Hi). apply In_nth_error in Hr' as (j & Hj).
  rewrite (Hu i r Hi H) in Hi. rewrite (Hu j r' Hj H') in Hj. congruence.
Qed.

Definition sol_for (rs ts : list rect) : list bool := map (fun r => if in_dec rect_dec r ts then true else false) rs.
Lemma select_sol_for rs ts : NoDup rs -> NoDup ts -> (forall r, In r ts -> In r rs) -> Permutation (select (sol_for rs ts) rs) ts.
Proof.
  intros H1 H2 Hin. unfold sol_for. rewrite select_map_filter. apply NoDup_Permutation; [now apply NoDup_filter|exact H2|].
  intros r. rewrite filter_In. destruct (in_dec rect_dec r ts) as [H|H]; split; intros HH; try tauto; [auto|destruct HH; discriminate].
Qed.
Lemma select_seen {A} (rs : list A) sol t (r : A) : nth_error rs t = Some r -> nth t sol false = true -> In r (select sol rs).
Proof.
  intros Hr Hs. eapply nth_error_In. apply (proj2 (select_nth sol rs (count_true (firstn t sol)) r)). exists t. split; [|auto].
  rewrite <- Hs. apply nth_error_nth'. destruct (Nat.lt_ge_cases t (length sol)); [assumption|]. rewrite nth_overflow in Hs by assumption. discriminate.
Qed.
Lemma unique_of_tiling_gen m n (rs : list rect) sol : (forall r, In r rs -> rect_ok m n r) -> NoDup rs ->
  0 < n -> length sol = length rs -> tiling m n (select sol rs) -> unique_assignment2 (m * n) (map (cells n) rs) sol.
Proof.
  intros Hok HND Hn Hlen HT c Hc.
  assert (Hy : c / n < m) by (apply Nat.div_lt_upper_bound; lia).
  assert (Hx : c mod n < n) by (apply Nat.mod_upper_bound; lia).
  apply xsum2_one.
  { apply NoDup_cols. intros row Hr. apply in_map_iff in Hr as (r & <- & Hr). apply (cells_NoDup m). now apply Hok. }
  destruct (proj2 HT _ _ Hy Hx) as (b & r & Hb & Hin & _). apply select_nth in Hb as (t & Hst & Hrt & Eb).
  exists t. split; [|split].
  - apply cols_In. exists (cells n r). split; [rewrite nth_error_map, Hrt; reflexivity|]. rewrite (cell_coord n c Hn).
    apply (cells_In_coord m); [apply Hok; eapply nth_error_In; eauto|exact Hx|exact Hin].
  - now apply nth_error_nth.
  - intros u Hu Hsu. apply cols_In in Hu as (row & Hrow & Hcu). rewrite nth_error_map in Hrow.
    destruct (nth_error rs u) as [r'|] eqn:Er'; [|discriminate]. injection Hrow as <-.
    rewrite (cell_coord n c Hn) in Hcu. apply (cells_In_coord m) in Hcu; [|apply Hok; eapply nth_error_In; eauto|exact Hx].
    assert (E : r' = r).
    { eapply tiling_unique; [exact HT|exact Hy|exact Hx| | |exact Hcu|exact Hin]; [now apply (select_seen rs sol u)|].
      apply (select_seen rs sol t); [exact Hrt|now apply nth_error_nth]. }
    subst r'. apply (proj1 (NoDup_nth_error rs) HND); [apply nth_error_Some; congruence|congruence].
Qed.
Lemma unique_of_tiling m n ok sol : 0 < n -> length sol = length (rects_of m n ok) -> tiling m n (select sol (rects_of m n ok)) ->
  unique_assignment2 (m * n) (map (cells n) (rects_of m n ok)) sol.
Proof. apply unique_of_tiling_gen; [|apply rects_of_NoDup]. intros r Hr. now apply rects_of_In in Hr as [? _]. Qed.

(** * The feasible solutions are exactly the valid tilings *)
Definition q_of (fe fne : list Z) (n : nat) (r : rect) : Q := rate (cell_sum fe (cells n r)) (cell_sum fne (cells n r)).
Lemma conn_lt keys step outer rd t u : In u (conn keys step outer rd t) -> u < length (rd_rows rd).
Proof. unfold conn. intros H. apply filter_In in H as [H _]. apply in_seq in H. lia. Qed.
Lemma mono_follows_gen (rs : list rect) q er sol (adj : rect -> rect -> Prop) (cn : nat -> list nat) tr md :
  length sol = length rs -> er = map q rs ->
  (forall t u, In u (cn t) -> u < length rs) ->
  (forall t u r r', nth_error rs t = Some r -> nth_error rs u = Some r' -> (In u (cn t) <-> adj r r')) ->
  (mono2 tr md er (length rs) cn sol <-> forall r r', In r (select sol rs) -> In r' (select sol rs) -> adj r r' -> follows tr md (q r) (q r')).
Proof.
  intros Hlen Her Hlt Hadj. destruct tr as [tr|]; [|cbn [mono2 follows]; tauto].
  assert (Hq : forall t r, nth_error rs t = Some r -> nth t er 0%Q = q r).
  { intros t r Ht. rewrite Her. erewrite nth_error_nth; [reflexivity|]. rewrite nth_error_map, Ht. reflexivity. }
  rewrite mono2_pairs by (intros; eauto). split.
  - intros H r r' Hr Hr' Ha. apply In_nth_error in Hr as (b & Hb). apply In_nth_error in Hr' as (b' & Hb').
    apply select_nth in Hb as (t & Hst & Hrt & _). apply select_nth in Hb' as (u & Hsu & Hru & _).
    rewrite <- (Hq t r Hrt), <- (Hq u r' Hru). apply bad_follows. apply H.
    + apply nth_error_Some. congruence.
    + now apply (Hadj t u r r').
    + now apply nth_error_nth.
    + now apply nth_error_nth.
  - intros H t u Ht Hu Hst Hsu. pose proof (Hlt t u Hu) as Hult.
    destruct (nth_error rs t) as [r|] eqn:Er; [|apply nth_error_None in Er; lia].
    destruct (nth_error rs u) as [r'|] eqn:Er'; [|apply nth_error_None in Er'; lia].
    apply bad_follows. rewrite (Hq t r Er), (Hq u r' Er'). apply H.
    + now apply (select_seen rs sol t).
    + now apply (select_seen rs sol u).
    + now apply (Hadj t u r r').
Qed.
Lemma mono_follows m n ok q er sol (adj : rect -> rect -> Prop) (cn : nat -> list nat) tr md :
  let rs := rects_of m n ok in length sol = length rs -> er = map q rs ->
  (forall t u, In u (cn t) -> u < length rs) ->
  (forall t u r r', nth_error rs t = Some r -> nth_error rs u = Some r' -> (In u (cn t) <-> adj r r')) ->
  (mono2 tr md er (length rs) cn sol <-> forall r r', In r (select sol rs) -> In r' (select sol rs) -> adj r r' -> follows tr md (q r) (q r')).
Proof. intros rs. apply mono_follows_gen. Qed.
Lemma bins_bounds g (rows : list (list nat)) sol : length sol = length rows ->
  (min_max_bins2 g (length rows) sol <->
   match min_bins2 g with Some lo => (lo <= Z.of_nat (count_true sol))%Z | None => True end /\
   match max_bins2 g with Some hi => (Z.of_nat (count_true sol) <= hi)%Z | None => True end).
Proof.
  intros E. unfold min_max_bins2. rewrite <- E, xsum2_length. destruct (min_bins2 g) as [lo|], (max_bins2 g) as [hi|]; try tauto.
  split; [intros (d & H1 & H2); lia|]. intros [H1 H2]. exists (hi - Z.of_nat (count_true sol))%Z. lia.
Qed.
Lemma feasible2_iff m n g fe fne (ok : list nat -> bool) sol : 0 < n -> gamma2 g = false ->
  let rs := rects_of m n ok in let rd := grid_rdata m n ok in length sol = length rs ->
  (feasible2 m n g rd (rates_of fe fne (rd_rows rd)) (records_of fe fne (rd_rows rd)) sol <->
   valid_tiling m n g (fun r => ok (cells n r) = true) (q_of fe fne n) (select sol rs)).
Proof.
  intros Hn Hg rs rd Hlen. unfold feasible2, valid_tiling. unfold dominating2. rewrite Hg.
  assert (Er : rates_of fe fne (rd_rows rd) = map (q_of fe fne n) rs) by (unfold rates_of, rd, grid_rdata; cbn [rd_rows]; now rewrite map_map).
  assert (El : length (rd_rows rd) = length rs) by (unfold rd, grid_rdata; cbn [rd_rows]; now rewrite map_length).
  rewrite bins_bounds by (now rewrite El). rewrite El. change (length rs) with (length (rects_of m n ok)).
  rewrite (mono_follows m n ok (q_of fe fne n) _ sol adj_x (conn_x m n rd) (trend_x g) (diff_x g) Hlen Er).
  2:{ intros t u H. apply conn_lt in H. fold rs. now rewrite <- El. }
  2:{ intros t u r r' Ht Hu. unfold adj_x. split.
      - intros H. destruct (conn_x_inv m n ok t u r Ht H) as (r0 & y & Hr0 & H1 & H2 & H3). rewrite Hu in Hr0. injection Hr0 as <-. eauto.
      - intros (H1 & y & H2 & H3). now apply (conn_x_In m n ok t u r r' y). }
  rewrite (mono_follows m n ok (q_of fe fne n) _ sol adj_y (conn_y m n rd) (trend_y g) (diff_y g) Hlen Er).
  2:{ intros t u H. apply conn_lt in H. fold rs. now rewrite <- El. }
  2:{ intros t u r r' Ht Hu. unfold adj_y. split.
      - intros H. destruct (conn_y_inv m n ok t u r Ht H) as (r0 & y & Hr0 & H1 & H2 & H3). rewrite Hu in Hr0. injection Hr0 as <-. eauto.
      - intros (H1 & y & H2 & H3). now apply (conn_y_In m n ok t u r r' y). }
  fold rs. rewrite (length_select sol rs Hlen).
  assert (Hok : forall r, In r (select sol rs) -> ok (cells n r) = true) by (intros r Hr; apply select_In' in Hr; now apply rects_of_In in Hr as [_ ?]).
  change (rd_rows rd) with (map (cells n) rs). split.
  - intros (_ & HU & HB & HX & HY & _). split; [now apply sol_tiling|]. tauto.
  - intros (HT & _ & H1 & H2 & HX & HY). split; [exact Hlen|]. split; [now apply unique_of_tiling|]. tauto.
Qed.
Lemma feasible2_complete m n g fe fne (ok : list nat -> bool) ts : 0 < n -> gamma2 g = false ->
  let rs := rects_of m n ok in let rd := grid_rdata m n ok in
  valid_tiling m n g (fun r => ok (cells n r) = true) (q_of fe fne n) ts ->
  exists sol, feasible2 m n g rd (rates_of fe fne (rd_rows rd)) (records_of fe fne (rd_rows rd)) sol /\ Permutation (select sol rs) ts.
Proof.
  intros Hn Hg rs rd HV. pose proof HV as (HT & Hok & H1 & H2 & HX & HY).
  assert (HP : Permutation (select (sol_for rs ts) rs) ts).
  { apply select_sol_for; [apply rects_of_NoDup|now apply (tiling_NoDup m n)|]. intros r Hr. apply rects_of_In. split; [now apply (proj1 HT)|now apply Hok]. }
  exists (sol_for rs ts). split; [|exact HP].
  apply (feasible2_iff m n g fe fne ok (sol_for rs ts) Hn Hg); [unfold sol_for; now rewrite map_length|]. fold rs.
  assert (Hin : forall r, In r (select (sol_for rs ts) rs) -> In r ts) by (intros r Hr; eapply Permutation_in; eauto).
  split; [eapply tiling_perm; [apply Permutation_sym; exact HP|exact HT]|]. split; [intros r Hr; apply Hok; auto|].
  rewrite (Permutation_length HP). split; [exact H1|]. split; [exact H2|]. split; intros r r' Hr Hr'; [apply HX|apply HY]; auto.
Qed.
Lemma objective2_sum (w : rect -> Z) rs sol : objective2 (map w rs) sol = zsum (map w (select sol rs)) .
Proof.
  unfold objective2. revert sol; induction rs as [|r rs IH]; intros [|s sol]; cbn [map map2 zsum select]; try reflexivity.
  rewrite IH. destruct s; cbn [map zsum b2z]; lia.
Qed.
