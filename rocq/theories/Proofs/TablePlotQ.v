(** plot(): what a figure of style "bin" or "actual" contains. *)
From Coq Require Import List ZArith QArith Bool Arith Lia String Reals.
From Verif Require Import Model.Arr Model.Core Model.Metrics Model.Label Model.Lifecycle Model.TablePlot Spec.TablePlotSpec Proofs.TablePlotP.
Import ListNotations.
Open Scope list_scope.
Open Scope nat_scope.

Section Bins.
Variables (t : ptable) (nb : nat) (a : pargs) (text : list string).
Hypothesis HW : well_formed t nb.
Hypothesis HT : List.length text = rows_of t nb.
Let sp := pa_special a.
Let ms := pa_missing a.
Let oth := if pt_others t then 1 else 0.
Lemma shown_eq : shown t nb a = rows_shown nb (pt_specials t) sp ms.
Proof. reflexivity. Qed.

(** the positions of the markers that are not on the line *)
Definition singles : list nat :=
  (if pt_others t then [nb - 1] else []) ++ (if sp then seq nb (pt_specials t) else []) ++ (if ms then [if sp then nb + pt_specials t else nb] else []).
Definition tick_labels : option (list string) :=
  if pa_labels a then
    let l := map (label_of t text) (seq 0 (rows_of t nb)) in
    let l := if sp then l else firstn (nb + pt_specials t - 1) l ++ [label_of t text (nb + pt_specials t)] in
    Some (if ms then l else firstn (List.length l - 1) l)
  else None.
Lemma ticks_eq : ticks t text sp ms =
  Ok (let l := map (label_of t text) (seq 0 (rows_of t nb)) in
      let l := if sp then l else firstn (nb + pt_specials t - 1) l ++ [label_of t text (nb + pt_specials t)] in
      if ms then l else firstn (List.length l - 1) l).
Proof.
  destruct HW as (H1 & _). unfold ticks.
  assert (E : (if pt_categorical t then map short_label text else text) = map (label_of t text) (seq 0 (rows_of t nb))).
  { rewrite <- HT. unfold label_of. destruct (pt_categorical t).
    - rewrite (list_seq EmptyString text) at 1. now rewrite map_map.
    - apply list_seq. }
  rewrite E. destruct sp; cbn [rbind]; [reflexivity|]. set (l := map (label_of t text) (seq 0 (rows_of t nb))).
  assert (El : l = map (label_of t text) (seq 0 (nb + pt_specials t)) ++ [label_of t text (nb + pt_specials t)]).
  { unfold l, rows_of. rewrite seq_app, map_app. reflexivity. }
  assert (Ll : List.length l = nb + pt_specials t + 1) by (unfold l; now rewrite map_length, seq_length).
  rewrite El at 1. rewrite rev_app_distr. cbn [rev app rbind]. replace (List.length l - 2) with (nb + pt_specials t - 1) by lia. reflexivity.
Qed.

Lemma plot_bins_eq : plot_bins t text a =
  Ok (mkBF (map (fun j => map (fun row => (below t j row, count_in t j row)) (shown t nb a)) (seq 0 (List.length (pt_series t))))
           (map (fun m => map (fun row => (row, nth row m None)) (seq 0 (nb - oth))) (pt_metric t (pa_metric a)))
           (map (fun m => map (fun p => (p, nth p m None)) singles) (pt_metric t (pa_metric a)))
           (if sp then seq nb (pt_specials t) else []) (if ms then [if sp then nb + pt_specials t else nb] else [])
           (if pt_others t then [nb - 1] else []) tick_labels
           (pt_names t ++ (if sp then ["Bin special"%string] else []) ++ (if ms then ["Bin missing"%string] else []))).
Proof.
  destruct HW as (H1 & H2 & H3 & _ & H5 & H6 & H7). fold oth in H1. unfold plot_bins.
  assert (LR : List.length (hd [] (pt_series t)) = nb + pt_specials t + 1) by (destruct (pt_series t); [contradiction|apply H3; now left]).
  fold sp ms oth. rewrite LR.
  replace (nb + pt_specials t + 1 - 1 - pt_specials t - oth) with (nb - oth) by lia.
  replace (match pt_kind t with KMulticlass => n_colours <? List.length (pt_series t) | _ => false end) with false.
  2:{ destruct (pt_kind t); [reflexivity|reflexivity|]. symmetry. apply Nat.ltb_ge. now apply H7. }
  rewrite (all_res_ok _ (fun s => map (fun r => nth r s 0%Z) (rows_shown nb (pt_specials t) sp ms))).
  2:{ intros s Hs. apply hide_eq. now apply H3. }
  cbn [rbind].
  replace (nb + pt_specials t + 1 - (if sp then 0 else pt_specials t) - (if ms then 0 else 1)) with (List.length (rows_shown nb (pt_specials t) sp ms)).
  2:{ rewrite rows_shown_length. destruct sp, ms; lia. }
  set (ns := List.length (rows_shown nb (pt_specials t) sp ms)).
  replace (forallb _ (map _ (pt_series t))) with true.
  2:{ symmetry. apply forallb_forall. intros h Hh. apply in_map_iff in Hh as (s & <- & _). rewrite map_length. apply Nat.eqb_refl. }
  cbn [negb]. replace (forallb _ (pt_metric t (pa_metric a))) with true.
  2:{ symmetry. apply forallb_forall. intros m Hm. apply Nat.leb_le. rewrite (H5 _ _ Hm). unfold rows_of. lia. }
  cbn [negb].
  assert (Ep1 : map (fun s => (if sp then nb - oth else 0) + oth + s) (seq 0 (pt_specials t)) = if sp then seq nb (pt_specials t) else seq oth (pt_specials t)).
  { transitivity (map (fun s => s + ((if sp then nb - oth else 0) + oth)) (seq 0 (pt_specials t))); [apply map_ext; intros; lia|].
    assert (G : forall k n st, map (fun s => s + k) (seq st n) = seq (st + k) n).
    { intros k n. induction n as [|n IH]; intros st; [reflexivity|]. cbn [seq map]. now rewrite IH. }
    rewrite G. destruct sp; f_equal; lia. }
  rewrite Ep1.
  assert (Ef : (if pt_others t then [nb - oth] else []) = (if pt_others t then [nb - 1] else [])) by (unfold oth; destruct (pt_others t); reflexivity).
  rewrite Ef.
  assert (Em : (if ms then [(if ms then if sp then nb - oth + pt_specials t else nb - oth else 0) + oth] else []) = (if ms then [if sp then nb + pt_specials t else nb] else [])).
  { destruct ms, sp; try reflexivity; f_equal; lia. }
  rewrite Em.
  replace (if sp then if sp then seq nb (pt_specials t) else seq oth (pt_specials t) else []) with (if sp then seq nb (pt_specials t) else []) by (destruct sp; reflexivity).
  rewrite (all_res_ok _ (fun m => map (fun p => (p, nth p m None)) singles)).
  2:{ intros m Hm. unfold marks. fold singles. apply all_res_ok. intros p Hp.
      assert (Hlt : p < ns).
      { unfold ns. rewrite rows_shown_length. unfold singles in Hp. rewrite !in_app_iff in Hp. unfold oth in H1. destruct Hp as [Hp|[Hp|Hp]].
        - destruct (pt_others t); [destruct Hp as [<-|[]]; lia|destruct Hp].
        - destruct sp; [apply in_seq in Hp; lia|destruct Hp].
        - destruct ms; [destruct Hp as [<-|[]]; destruct sp; lia|destruct Hp]. }
      assert (Hb : ns <= nb + pt_specials t + 1) by (unfold ns; rewrite rows_shown_length; destruct sp, ms; lia).
      rewrite (proj2 (Nat.ltb_lt _ _) Hlt). rewrite (nth_error_nth' m None); [reflexivity|]. rewrite (H5 _ _ Hm). unfold rows_of. lia. }
  cbn [rbind]. rewrite ticks_eq.
  assert (Et : rbind (if pa_labels a then rbind (Ok (let l := map (label_of t text) (seq 0 (rows_of t nb)) in
      let l := if sp then l else firstn (nb + pt_specials t - 1) l ++ [label_of t text (nb + pt_specials t)] in
      if ms then l else firstn (List.length l - 1) l)) (fun l => Ok (Some l)) else Ok None) (fun tk => Ok tk) = Ok tick_labels).
  { unfold tick_labels. destruct (pa_labels a); reflexivity. }
  assert (El : (if pa_labels a then rbind (Ok (let l := map (label_of t text) (seq 0 (rows_of t nb)) in
      let l := if sp then l else firstn (nb + pt_specials t - 1) l ++ [label_of t text (nb + pt_specials t)] in
      if ms then l else firstn (List.length l - 1) l)) (fun l => Ok (Some l)) else Ok None) = Ok tick_labels).
  { unfold tick_labels. destruct (pa_labels a); reflexivity. }
  rewrite El. clear El Et. cbn [rbind]. f_equal. f_equal.
  - replace (repeat 0%Z ns) with (map (fun _ : nat => 0%Z) (rows_shown nb (pt_specials t) sp ms)).
    2:{ unfold ns. induction (rows_shown nb (pt_specials t) sp ms) as [|r l IH]; [reflexivity|]. cbn [map List.length repeat]. now rewrite IH. }
    rewrite (stack_eq _ (pt_series t) (fun _ => 0%Z)). reflexivity.
  - apply map_ext_in. intros m Hm. pose proof (H5 _ _ Hm) as Lm. unfold rows_of in Lm. rewrite (firstn_seq None) by lia.
    clear. induction (seq 0 (nb - oth)) as [|r l IH]; [reflexivity|]. cbn [map combine]. now rewrite IH.
Qed.
End Bins.

Section Act.
Variables (t : ptable) (nb : nat) (a : pargs).
Hypothesis HW : well_formed t nb.
Hypothesis HN : nb = Datatypes.S (List.length (pt_splits t)).
Lemma cut_tail_eq {A} (d : A) l : List.length l = rows_of t nb -> cut_tail (Datatypes.S (pt_specials t)) l = map (fun r => nth r l d) (seq 0 nb).
Proof. intros L. unfold cut_tail. rewrite L. unfold rows_of. replace (nb + pt_specials t + 1 - Datatypes.S (pt_specials t)) with nb by lia. apply firstn_seq. rewrite L. unfold rows_of. lia. Qed.
Lemma spans_eq lo hi : spans (lo :: pt_splits t ++ [hi]) = map (fun i => (left_edge t lo i, right_edge t hi i)) (seq 0 nb).
Proof.
  pose proof (list_seq (0%Z, 0%Z) (spans (lo :: pt_splits t ++ [hi]))) as E. rewrite spans_length in E. cbn [List.length] in E. rewrite app_length in E. cbn [List.length] in E.
  replace (Datatypes.S (List.length (pt_splits t) + 1) - 1) with nb in E by lia. rewrite E. apply map_ext_in. intros i Hi. apply in_seq in Hi.
  apply nth_error_nth. unfold left_edge, right_edge. apply spans_nth. lia.
Qed.
Lemma map2_map {A B C D} (g : B -> C -> D) (f1 : A -> B) (f2 : A -> C) l : map2 g (map f1 l) (map f2 l) = map (fun x => g (f1 x) (f2 x)) l.
Proof. induction l as [|x l IH]; [reflexivity|]. cbn [map map2]. now rewrite IH. Qed.
Lemma plot_actual_ok lo hi : exists f, plot_actual t a lo hi = Ok f /\ actual_shows t nb a lo hi f.
Proof.
  destruct HW as (H1 & H2 & H3 & H4 & H5 & _). unfold plot_actual. rewrite <- HN.
  set (m := hd [] (pt_metric t (pa_metric a))).
  assert (Lm : List.length m = rows_of t nb).
  { unfold m. apply (H5 (pa_metric a)). pose proof (H4 (pa_metric a)). destruct (pt_metric t (pa_metric a)); [contradiction|now left]. }
  replace (forallb _ (map _ (pt_series t))) with true.
  2:{ symmetry. apply forallb_forall. intros h Hh. apply in_map_iff in Hh as (s & <- & Hs). rewrite (cut_tail_eq 0%Z) by now apply H3. rewrite map_length, seq_length. apply Nat.eqb_refl. }
  cbn [negb]. rewrite spans_eq.
  rewrite (all_res_ok _ (fun i => (left_edge t lo i, right_edge t hi i, nth i m None))).
  2:{ intros i Hi. apply in_seq in Hi. rewrite (nth_error_nth' m None) by (rewrite Lm; unfold rows_of; lia). rewrite nth_error_map.
      rewrite (nth_error_nth' (seq 0 nb) 0) by (rewrite seq_length; lia). rewrite seq_nth by lia. reflexivity. }
  cbn [rbind]. rewrite (cut_tail_eq None _ Lm). rewrite map_length, seq_length, Nat.eqb_refl. cbn [negb].
  eexists. split; [reflexivity|]. unfold actual_shows. fold m. cbn [af_bars af_segments af_points af_vlines].
  split; [|split; [reflexivity|split; [|split; [|reflexivity]]]].
  - replace (map (cut_tail (Datatypes.S (pt_specials t))) (pt_series t)) with (map (fun s => map (fun r => nth r s 0%Z) (seq 0 nb)) (pt_series t)).
    2:{ apply map_ext_in. intros s Hs. symmetry. apply cut_tail_eq. now apply H3. }
    replace (repeat 0%Z nb) with (map (fun _ : nat => 0%Z) (seq 0 nb)).
    2:{ clear. generalize 0. induction nb as [|n IH]; intros st; [reflexivity|]. cbn [seq map repeat]. now rewrite IH. }
    rewrite (stack_eq _ (pt_series t) (fun _ => 0%Z)), map_map. apply map_ext. intros j. rewrite map2_map. reflexivity.
  - rewrite map2_map, map_length, seq_length. reflexivity.
  - intros i Hi. rewrite map2_map, nth_error_map. rewrite (nth_error_nth' (seq 0 nb) 0) by (rewrite seq_length; lia). rewrite seq_nth by lia. cbn [option_map fst snd plus].
    eexists. split; [reflexivity|]. unfold Qdiv. rewrite inject_Z_plus. unfold Z.sub. rewrite inject_Z_plus, inject_Z_opp. field.
Qed.
End Act.

(** the last fit: min_x and max_x *)
Lemma post_range e x so o sol sp nev ev c s o' : post e x so o sol sp nev ev c s = (o', Ok tt) ->
  exists t, o_table o' = Some t /\ Lifecycle.t_min t = zmin (map num (x_clean so)) /\ Lifecycle.t_max t = zmax (map num (x_clean so)) /\ map num (x_clean so) <> [].
Proof.
  unfold post. intros H.
  destruct (o_spec o) as [p|]; [|discriminate]. destruct (o_miss o) as [m|]; [|discriminate].
  destruct (bin_info_1 _ _ _ _ _ _) as [u|]; [|discriminate].
  destruct (bin_info_1 _ _ _ _ _ _) as [b|]; [|discriminate].
  destruct (map num (x_clean so)) as [|z zs] eqn:E; [discriminate|]. injection H as <-.
  eexists. split; [reflexivity|]. cbn [Lifecycle.t_min Lifecycle.t_max]. split; [reflexivity|]. split; [reflexivity|]. discriminate.
Qed.
Lemma optimise_range e x so o sp nev ev c o' : optimise e x so o sp nev ev c = (o', Ok tt) ->
  exists t, o_table o' = Some t /\ Lifecycle.t_min t = zmin (map num (x_clean so)) /\ Lifecycle.t_max t = zmax (map num (x_clean so)) /\ map num (x_clean so) <> [].
Proof.
  unfold optimise. destruct (_ <=? _)%nat; intros H; [exact (post_range _ _ _ _ _ _ _ _ _ _ _ H)|].
  destruct (e_solver _ _ _ _ _ _) as [[st sol]|k]; [|discriminate]. exact (post_range _ _ _ _ _ _ _ _ _ _ _ H).
Qed.
Lemma refine_range e x so o sp o' : refine_and_optimise e x so o sp = (o', Ok tt) ->
  exists t, o_table o' = Some t /\ Lifecycle.t_min t = zmin (map num (x_clean so)) /\ Lifecycle.t_max t = zmax (map num (x_clean so)) /\ map num (x_clean so) <> [].
Proof.
  unfold refine_and_optimise. destruct (prebins_st _ _ _ _ _ _) as [[ps [[[s n] v]|k]]|]; intros H; [|discriminate|discriminate]. exact (optimise_range _ _ _ _ _ _ _ _ _ H).
Qed.
Lemma fit_range e x o o' : fit e x o = (o', Ok tt) ->
  exists t, o_table o' = Some t /\ let l := map num (x_clean (split_masks (e_special e) (d_x x) (d_y x) (d_w x))) in
    Lifecycle.t_min t = zmin l /\ Lifecycle.t_max t = zmax l /\ l <> [].
Proof.
  unfold fit. destruct (negb (params_ok o)); [discriminate|]. destruct (o_user o) as [[c [|u us]]|]; intros H.
  - exact (optimise_range _ _ _ _ _ _ _ _ _ H).
  - destruct (negb (distinct (u :: us))); [discriminate|]. exact (refine_range _ _ _ _ _ _ H).
  - destruct (e_prebin e _) as [s|]; [|discriminate]. exact (refine_range _ _ _ _ _ _ H).
Qed.
