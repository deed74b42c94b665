(** gamma: reduction of dominating bins (cp.py:69-76, 153-160; continuous_cp.py:58-67). *)
From Coq Require Import List ZArith Bool Arith Lia Sorting.
From Verif Require Import Model.Arr Model.Core Model.CP Model.Cont Spec.CoreSpec Spec.CPSpec Spec.CPFitSpec Spec.ContSpec
  Proofs.ArrP Proofs.CoreP Proofs.FitP Proofs.CPP Proofs.CPC Proofs.CPTable Proofs.CPFinal Proofs.ContP.
Import ListNotations.
Open Scope Z_scope.

Lemma zsum_nonneg l : (forall v, In v l -> 0 <= v) -> 0 <= zsum l.
Proof.
  induction l as [|a l IH]; intros Hl; cbn [zsum]; [lia|]. pose proof (Hl a (or_introl eq_refl)).
  assert (0 <= zsum l) by (apply IH; intros; apply Hl; now right). lia.
Qed.
Lemma gsum_le_total N g : (forall v, In v N -> 0 <= v) -> 0 <= gsum N g <= zsum N.
Proof.
  intros H. unfold gsum, slice. set (k := (S (snd g) - fst g)%nat).
  assert (E : N = firstn (fst g) N ++ firstn k (skipn (fst g) N) ++ skipn k (skipn (fst g) N)).
  { now rewrite firstn_skipn, firstn_skipn. }
  rewrite E at 3. rewrite !zsum_app.
  assert (G1 : 0 <= zsum (firstn (fst g) N)) by (apply zsum_nonneg; intros v Hv; apply H; rewrite E; apply in_or_app; now left).
  assert (G2 : 0 <= zsum (firstn k (skipn (fst g) N))) by (apply zsum_nonneg; intros v Hv; apply H; rewrite E; apply in_or_app; right; apply in_or_app; now left).
  assert (G3 : 0 <= zsum (skipn k (skipn (fst g) N))) by (apply zsum_nonneg; intros v Hv; apply H; rewrite E; apply in_or_app; right; apply in_or_app; now right).
  lia.
Qed.
Lemma sum_range_total N : N <> [] -> sum_range 0 (length N) (at0 N) = zsum N.
Proof.
  intros Hn. destruct N as [|a N]; [congruence|]. change (length (a :: N)) with (S (length N)).
  rewrite sum_range_nth by (cbn; lia). unfold gsum, slice. cbn [fst snd skipn]. rewrite Nat.sub_0_r. f_equal. apply (firstn_all (a :: N)).
Qed.

Section Dom.
Variables (N : list Z).
Let n := length N.
Hypothesis Hn : (0 < n)%nat.
Hypothesis Hpos : forall v, In v N -> 0 <= v.

Lemma dominating_iff gs X pmin pmax : partition n gs -> describes n gs X ->
  dominating n (at0 N) pmin pmax X <->
  0 <= pmin /\ pmin <= pmax /\ pmax <= zsum N /\ forall s, In s (map (gsum N) gs) -> pmin <= s <= pmax.
Proof.
  intros Hp Hr. unfold dominating. assert (HN : N <> []) by (unfold n in Hn; destruct N; [cbn in Hn; lia|discriminate]).
  cbv zeta. assert (ET : sum_range 0 n (at0 N) = zsum N) by (apply (sum_range_total N HN)). rewrite ET.  split.
  - intros ([A1 A2] & [B1 B2] & C & H). repeat split; try lia.
    all: apply in_map_iff in H0; destruct H0 as ([a e] & <- & Hin); pose proof (chain_in _ _ _ _ _ Hp Hin) as Hb; destruct (H e ltac:(lia)) as [H1 H2];
      rewrite (row_size_end n gs X Hp Hr (at0 N) a e Hin), (diag1 n gs X Hp Hr a e Hin), (sum_range_nth N a e) in * by (unfold n in *; lia); lia.
  - intros (A & B & C & H). assert (T : 0 <= zsum N) by (now apply zsum_nonneg).
    assert (G : forall i, (i < n)%nat -> pmin <= zsum N * (1 - X i i) + row_size (at0 N) X i /\ pmax >= row_size (at0 N) X i).
    { intros i Hi. destruct (end_dec gs i) as [[a Hin]|Hno].
      - pose proof (chain_in _ _ _ _ _ Hp Hin) as Hb.
        rewrite (row_size_end n gs X Hp Hr (at0 N) a i Hin), (diag1 n gs X Hp Hr a i Hin), (sum_range_nth N a i) by (unfold n in *; lia).
        destruct (H (gsum N (a, i))) as [H1 H2]; [apply in_map_iff; now exists (a, i)|]. lia.
      - rewrite (row_size_other n gs X Hr (at0 N) i Hi Hno), (diag0 n gs X Hr i Hi Hno). lia. }
    repeat split; try lia; intros; apply G; assumption.
Qed.
Lemma exists_min l : l <> [] -> exists m, is_min m l. Proof. exists (np_min l). now apply np_min_spec. Qed.
Lemma exists_max l : l <> [] -> exists m, is_max m l. Proof. exists (np_max l). now apply np_max_spec. Qed.
Lemma parts_nonempty gs : partition n gs -> map (gsum N) gs <> [].
Proof. intros Hp E. apply map_eq_nil in E. subst. unfold partition in Hp. inversion Hp. lia. Qed.
Lemma tight_dominating gs X a b : partition n gs -> describes n gs X -> is_min a (map (gsum N) gs) -> is_max b (map (gsum N) gs) ->
  dominating n (at0 N) a b X.
Proof.
  intros Hp Hr [A1 A2] [B1 B2]. apply (dominating_iff gs X a b Hp Hr).
  assert (forall s, In s (map (gsum N) gs) -> 0 <= s <= zsum N).
  { intros s Hs. apply in_map_iff in Hs. destruct Hs as (g & <- & _). now apply gsum_le_total. }
  pose proof (H a A1). pose proof (H b B1). pose proof (A2 b B1). split; [lia|]. split; [lia|]. split; [lia|]. intros s Hs. split; [now apply A2|now apply B2].
Qed.

Variables (P : mat -> Prop) (obj : mat -> Z) (reg : Z).
Hypothesis Hreg : 0 < reg.
Lemma gamma_optimum X pmin pmax gs : P X -> dominating n (at0 N) pmin pmax X ->
  (forall X' a b, P X' -> dominating n (at0 N) a b X' -> obj X' - reg * (b - a) <= obj X - reg * (pmax - pmin)) ->
  partition n gs -> describes n gs X ->
  is_min pmin (map (gsum N) gs) /\ is_max pmax (map (gsum N) gs) /\
  forall X' gs' a b, P X' -> partition n gs' -> describes n gs' X' -> is_min a (map (gsum N) gs') -> is_max b (map (gsum N) gs') ->
    obj X' - reg * (b - a) <= obj X - reg * (pmax - pmin).
Proof.
  intros HX HD Hopt Hp Hr.
  destruct (exists_min _ (parts_nonempty gs Hp)) as [a Ha]. destruct (exists_max _ (parts_nonempty gs Hp)) as [b Hb].
  pose proof (Hopt X a b HX (tight_dominating gs X a b Hp Hr Ha Hb)) as H1.
  apply (dominating_iff gs X pmin pmax Hp Hr) in HD. destruct HD as (D1 & D2 & D3 & D4).
  pose proof (D4 a (proj1 Ha)) as [E1 _]. pose proof (D4 b (proj1 Hb)) as [_ E2].
  assert (pmin = a /\ pmax = b) as [-> ->] by nia. split; [exact Ha|]. split; [exact Hb|].
  intros X' gs' a' b' HX' Hp' Hr' Ha' Hb'. apply Hopt; [exact HX'|]. now apply (tight_dominating gs').
Qed.
End Dom.

(** continuous: pmin and pmax are free *)
Lemma c_gamma_ignored n V (P : mat -> Prop) reg total X pmin pmax : 0 <= reg -> 0 <= total ->
  P X -> 0 <= pmin <= total -> 0 <= pmax <= total ->
  (forall X' a b, P X' -> 0 <= a <= total -> 0 <= b <= total -> c_gamma_objective n V X' reg a b <= c_gamma_objective n V X reg pmin pmax) ->
  forall X', P X' -> objective n V X' <= objective n V X.
Proof.
  intros Hr Ht HX H1 H2 H X' HX'. pose proof (H X' pmin pmax HX' H1 H2). unfold c_gamma_objective in H0. lia.
Qed.
