(** Proofs for C91: the progress figure. *)
From Coq Require Import List ZArith QArith Reals Bool Arith Lia Lra Sorting.
From Verif Require Import Model.Arr Model.Core Model.Metrics Model.GK Model.BSketch Model.OptSketch Model.SketchLife Model.Progress Model.MonLife Model.PsiPlot
  Spec.CoreSpec Spec.SketchLifeSpec Spec.StreamPlotsSpec Proofs.ArrP Proofs.SketchLifeP.
Import ListNotations.
Open Scope nat_scope.

Section Obj.
Variables (e : Q) (d : divergence) (solver : opt_solver) (m : nat).
Notation obj := (object e d solver m).
Notation so := (sketch_object e d solver m).
Notation good := (good_solves e d solver m).
Lemma so_object h : so_obj (so h) = obj h.
Proof. unfold object. induction h as [|h IH c|h IH|h IH o IHo]; cbn [sketch_object run_obj so_add so_solve so_merge so_obj]; [reflexivity| | |]; rewrite ?IH, ?IHo; reflexivity. Qed.
Definition table_div (h : shist) : R := let t := snd (o_table (obj (SSolve h))) in div_of d (fst t) (snd t).
Lemma so_divs_good h : so_divs (so h) = map table_div (good h).
Proof.
  induction h as [|h IH c|h IH|h IH o IHo]; cbn [sketch_object so_add so_solve so_merge so_divs good_solves]; [reflexivity|exact IH| |exact IH].
  rewrite so_object. unfold outcome. cbn [run_obj]. fold (obj h). unfold table_div, object at 2. cbn [run_obj]. fold (obj h).
  destruct (snd (n_solve d solver m (obj h))) as [[]|x] eqn:E; cbn [is_ok app map]; rewrite IH; reflexivity.
Qed.
Lemma good_shorter h h' : In h' (good h) -> length (records h') <= length (records h).
Proof.
  induction h as [|h IH [l|]|h IH|h IH o IHo]; cbn [good_solves records]; intros H.
  - destruct H.
  - specialize (IH H). rewrite app_length. lia.
  - exact (IH H).
  - apply in_app_or in H as [H|H]; [|exact (IH H)]. destruct (is_ok _); [|destruct H]. destruct H as [<-|[]]. apply le_n.
  - specialize (IH H). rewrite app_length. lia.
Qed.
Lemma good_sorted h : StronglySorted Z.ge (map n_of (good h)).
Proof.
  induction h as [|h IH c|h IH|h IH o IHo]; cbn [good_solves]; [constructor|exact IH| |exact IH]. destruct (is_ok _); [|exact IH].
  cbn [app map]. constructor; [exact IH|]. rewrite Forall_map, Forall_forall. intros h' H. apply good_shorter in H. unfold n_of. lia.
Qed.
Lemma map2_combine_seq {A} (f : nat * (nat * Z) -> R -> A) : forall (ks : list nat) (g : list shist), length ks = length g ->
  map2 f (combine ks (map (fun h' => (own_adds h', n_of h')) g)) (map table_div g) = map (fun p => f (fst p, (own_adds (snd p), n_of (snd p))) (table_div (snd p))) (combine ks g).
Proof. induction ks as [|k ks IH]; intros [|h g] L; try discriminate; [reflexivity|]. cbn [map combine map2 fst snd]. f_equal. apply IH. cbn in L. lia. Qed.
Lemma rows_good h : opt_ok solver -> clean_merges h ->
  rev (map2 (fun r dv => (fst (snd r), snd (snd r), dv)) (o_stats (so_obj (so h))) (so_divs (so h))) = map (fun h' => (own_adds h', n_of h', table_div h')) (rev (good h)).
Proof.
  intros Ho C. rewrite so_object, so_divs_good. destruct (stats_obj e d solver m h Ho C) as [_ S2]. rewrite S2. rewrite map_rev. f_equal.
  change (fun h' => (own_adds h', Z.of_nat (length (records h')))) with (fun h' => (own_adds h', n_of h')).
  rewrite map2_combine_seq by (now rewrite rev_length, seq_length). cbn [fst snd].
  assert (G : forall (ks : list nat) (g : list shist), length ks = length g -> map (fun p : nat * shist => (own_adds (snd p), n_of (snd p), table_div (snd p))) (combine ks g) = map (fun h' => (own_adds h', n_of h', table_div h')) g).
  { induction ks as [|k ks IH]; intros [|x g] L; try discriminate; [reflexivity|]. cbn [combine map fst snd]. f_equal. apply IH. cbn in L. lia. }
  apply G. now rewrite rev_length, seq_length.
Qed.
Lemma solved_good h : opt_ok solver -> clean_merges h -> (o_solved (obj h) = true <-> good h <> []).
Proof.
  intros Ho C. pose proof (published e d solver m h Ho C) as P.
  assert (L : match last_good e d solver m h with Some h' => exists r, good h = h' :: r | None => good h = [] end).
  { clear. induction h as [|h IH c|h IH|h IH o IHo]; cbn [last_good good_solves]; [reflexivity|exact IH| |exact IH].
    destruct (is_ok _); cbn [app]; [eexists; reflexivity|exact IH]. }
  destruct (last_good e d solver m h) as [h'|].
  - destruct P as [P _]. destruct L as [r L]. rewrite P, L. split; [discriminate|reflexivity].
  - rewrite P, L. split; [discriminate|intros X; now destruct X].
Qed.
Lemma good_is_ok h h' : In h' (good h) -> is_ok (outcome e d solver m (SSolve h')) = true.
Proof.
  induction h as [|h IH c|h IH|h IH o IHo]; cbn [good_solves]; intros H; [destruct H|exact (IH H)| |exact (IH H)].
  apply in_app_or in H as [H|H]; [|exact (IH H)]. destruct (is_ok (outcome e d solver m (SSolve h))) eqn:E; [|destruct H]. destruct H as [<-|[]]. exact E.
Qed.
Lemma good_clean h h' : clean_merges h -> In h' (good h) -> clean_merges h'.
Proof.
  induction h as [|h IH c|h IH|h IH o IHo]; cbn [good_solves clean_merges]; intros C H; [destruct H|exact (IH C H)| |exact (IH (proj1 C) H)].
  apply in_app_or in H as [H|H]; [|exact (IH C H)]. destruct (is_ok _); [|destruct H]. destruct H as [<-|[]]. exact C.
Qed.
End Obj.

(** ** the band *)
Open Scope R_scope.
Lemma rsum_sq_nonneg (f : R -> R) l : 0 <= rsum (map (fun x => f x ^ 2) l).
Proof. induction l as [|x l IH]; [apply Rle_refl|]. cbn [map rsum fold_right] in *. pose proof (pow2_ge_0 (f x)). change (0 <= f x ^ 2 + rsum (map (fun x => f x ^ 2) l)). unfold rsum in *. lra. Qed.
Lemma rsum_sq_zero (f : R -> R) l : rsum (map (fun x => f x ^ 2) l) = 0 <-> forall x, In x l -> f x = 0.
Proof.
  induction l as [|x l IH]; [split; [intros _ x []|reflexivity]|].
  change (rsum (map (fun x => f x ^ 2) (x :: l))) with (f x ^ 2 + rsum (map (fun x => f x ^ 2) l)).
  pose proof (pow2_ge_0 (f x)) as A. pose proof (rsum_sq_nonneg f l) as B. split.
  - intros H y [<-|Hy]; [|apply IH; [lra|exact Hy]]. assert (X : f x ^ 2 = 0) by lra. destruct (Req_dec (f x) 0) as [Y|Y]; [exact Y|]. exfalso. apply (pow_nonzero _ 2) in Y. contradiction.
  - intros H. rewrite (H x (or_introl eq_refl)), (proj2 IH (fun y Hy => H y (or_intror Hy))). ring.
Qed.
Lemma z_pos : 0 < z_95.
Proof. unfold z_95. lra. Qed.
Lemma err_eq l i : (0 < i)%nat -> roll_err l i = Some (sqrt (rsum (map (fun x => (x - roll_mean l i) ^ 2) (firstn (S i) l)) / INR i) / sqrt (INR (S i))).
Proof. intros H. unfold roll_err, roll_std. destruct i; [lia|reflexivity]. Qed.
