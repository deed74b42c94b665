(** Proofs for C91: the PSI figure. *)
From Coq Require Import List ZArith QArith Bool Arith Lia Lqa.
From Verif Require Import Model.Arr Model.Core Model.Process Model.Classif Model.Monitor Model.MonLife Model.Progress Model.PsiPlot
  Spec.CoreSpec Spec.MonitorSpec Spec.MonLifeSpec Spec.StreamPlotsSpec Proofs.ArrP Proofs.MonitorP Proofs.MonLifeP Proofs.MonLifeQ.
Import ListNotations.
Open Scope nat_scope.

Lemma nth_error_combine {A B} : forall (a : list A) (b : list B) i, nth_error (combine a b) i = match nth_error a i, nth_error b i with Some x, Some y => Some (x, y) | _, _ => None end.
Proof.
  induction a as [|x a IH]; intros [|y b] [|i]; cbn; try reflexivity; [destruct (nth_error a i); reflexivity|]. apply IH.
Qed.
Lemma positions_nth n i : i < n -> nth_error (positions n) i = Some (at_ i).
Proof. intros H. unfold positions. rewrite nth_error_map, (nth_error_nth' _ 0) by (rewrite seq_length; exact H). rewrite seq_nth by exact H. reflexivity. Qed.
Lemma positions_len n : length (positions n) = n.
Proof. unfold positions. now rewrite map_length, seq_length. Qed.
Lemma ratio_pos a b : (0 < b)%Z -> ratio a b = Some (inject_Z a / inject_Z b)%Q.
Proof. intros H. unfold ratio. destruct (b =? 0)%Z eqn:E; [apply Z.eqb_eq in E; lia|reflexivity]. Qed.
Lemma heights_nth l i c : (0 < zsum l)%Z -> nth_error l i = Some c -> nth_error (heights l) i = Some (Some (inject_Z c / inject_Z (zsum l) * 100)%Q).
Proof. intros H E. unfold heights. rewrite nth_error_map, E. cbn [option_map]. now rewrite (ratio_pos c (zsum l) H). Qed.
Lemma heights_len l : length (heights l) = length l.
Proof. unfold heights. apply map_length. Qed.
Lemma injp a : (0 < a)%Z -> (0 < inject_Z a)%Q.
Proof. intros H. unfold Qlt. cbn. lia. Qed.
Lemma heights_sum l (xs : list Q) : (0 < zsum l)%Z -> length xs = length l -> (sum_of (combine xs (heights l)) == 100)%Q.
Proof.
  intros H. unfold sum_of, heights. pose proof (injp _ H) as P. assert (G : forall l', length xs = length l' ->
    (qsum (map (fun r : Q * option Q => match snd r with Some q => q | None => 0 end) (combine xs (map (fun c => match ratio c (zsum l) with Some q => Some (q * 100) | None => None end) l'))) == inject_Z (zsum l') / inject_Z (zsum l) * 100)%Q).
  { induction xs as [|x xs IH]; intros [|c l'] L; try discriminate.
    - cbn. field. lra.
    - cbn [map combine qsum fold_right snd zsum]. fold (qsum). rewrite (ratio_pos c _ H). change (fold_right Qplus 0%Q) with qsum. rewrite IH by (cbn in L; lia).
      change (zsum (c :: l')) with (c + zsum l')%Z. rewrite inject_Z_plus. field. lra. }
  intros L. rewrite (G l L). field. lra.
Qed.

Section Mon.
Variable u : outside.
Lemma fit_metrics sc o Xa ya Xe ye s : snd (fit_mon u sc o Xa ya Xe ye s) = Ok tt -> exists mt, new_metrics u sc o Xa ya Xe ye = Some mt /\
  forall n na ne, ms_counts (fst (fit_mon u sc o Xa ya Xe ye s)) = Some (na, ne) -> n = length na -> length ne = n /\ length (fst mt) = n /\ length (snd mt) = n.
Proof.
  unfold fit_mon, new_metrics. destruct (u_check u o); [|discriminate]. destruct (sc_fitted sc); [|discriminate]. cbn [negb orb].
  destruct ya as [ya|ya|], ye as [ye|ye|]; cbn [type_of dtype_eqb negb]; try discriminate; destruct (names_eqb _ _); try discriminate; cbn [negb];
    unfold fit_binary, fit_continuous, finish_fit; destruct (sc_score sc Xa) as [za|]; try discriminate; destruct (sc_score sc Xe) as [ze|]; try discriminate;
    destruct (u_prebin u o ze _) as [sp|]; try discriminate; destruct (Nat.eqb _ _ && Nat.eqb _ _); try discriminate; cbn [negb]; cbv zeta; intros H.
  - destruct (tests_loop _ _ _ _); [|discriminate]. destruct (perf_binary _ _ _ _ _); [|discriminate]. destruct (fit_vars sc Xa Xe); [|discriminate].
    eexists. split; [reflexivity|]. cbn [fst snd set_splits set_vars ms_counts]. intros n na ne [= <- <-] ->. unfold sys_records, rates, bins_of. rewrite !map_length. auto.
  - destruct (perf_cont _ _ _ _ _ _); [|discriminate]. destruct (fit_vars sc Xa Xe); [|discriminate].
    eexists. split; [reflexivity|]. cbn [fst snd set_splits set_vars ms_counts]. intros n na ne [= <- <-] ->. unfold cont_counts, means, bins_of. rewrite !map_length. auto.
Qed.
Lemma prun_app w a b : prun u w (a ++ b) = prun u (prun u w a) b.
Proof. unfold prun. apply fold_left_app. Qed.
Lemma prun_world ops : forall w, pw_w u (prun u w ops) = mrun u (pw_w u w) ops.
Proof. induction ops as [|op ops IH]; intros w; [reflexivity|]. cbn [prun fold_left mrun]. fold (prun u (pstep u w op) ops). now rewrite IH. Qed.
Lemma quiet_plot ops : forall w sv, Forall quiet ops -> psi_plot u (prun u w ops) sv = psi_plot u w sv.
Proof.
  induction ops as [|op ops IH]; intros w sv H; [reflexivity|]. inversion H as [|? ? Hq Hr]; subst. cbn [prun fold_left]. fold (prun u (pstep u w op) ops). rewrite IH by exact Hr.
  destruct op; [destruct Hq|reflexivity|reflexivity].
Qed.
Definition shown (s : mstate) : Prop := ms_counts s <> None /\ ms_dtype s <> None.
Lemma fit_shown sc o Xa ya Xe ye s : snd (fit_mon u sc o Xa ya Xe ye s) = Ok tt \/ shown s -> shown (fst (fit_mon u sc o Xa ya Xe ye s)).
Proof.
  unfold shown, fit_mon. intros H. destruct (negb (u_check u o)); [destruct H; [discriminate|assumption]|]. destruct (negb (sc_fitted sc)); [destruct H; [discriminate|assumption]|].
  destruct ya as [ya|ya|], ye as [ye|ye|]; cbn [type_of dtype_eqb negb] in *; try (destruct H; [discriminate|assumption]);
    (destruct (negb (names_eqb _ _)); [destruct H as [H|[H1 H2]]; [discriminate|split; [exact H1|discriminate]]|]);
    unfold fit_binary, fit_continuous, finish_fit in *; cbv zeta in *;
    (destruct (sc_score sc Xa) as [za|]; [|destruct H as [H|[H1 H2]]; [discriminate|split; [exact H1|discriminate]]]);
    (destruct (sc_score sc Xe) as [ze|]; [|destruct H as [H|[H1 H2]]; [discriminate|split; [exact H1|discriminate]]]);
    (destruct (u_prebin u o ze _) as [sp|]; [|destruct H as [H|[H1 H2]]; [discriminate|split; [exact H1|discriminate]]]);
    (destruct (negb _); [destruct H as [H|[H1 H2]]; [discriminate|split; [exact H1|discriminate]]|]).
  - destruct (tests_loop _ _ _ _); [|destruct H as [H|[H1 H2]]; [discriminate|split; [exact H1|discriminate]]].
    destruct (perf_binary _ _ _ _ _); [|destruct H as [H|[H1 H2]]; [discriminate|split; [exact H1|discriminate]]]. destruct (fit_vars sc Xa Xe); split; discriminate.
  - destruct (perf_cont _ _ _ _ _ _); [|destruct H as [H|[H1 H2]]; [discriminate|split; [exact H1|discriminate]]]. destruct (fit_vars sc Xa Xe); split; discriminate.
Qed.
Lemma metrics_kept ops w : (ms_fitted (mw_s u (pw_w u w)) = true -> shown (mw_s u (pw_w u w)) /\ pw_metrics u w <> None) ->
  ms_fitted (mw_s u (pw_w u (prun u w ops))) = true -> shown (mw_s u (pw_w u (prun u w ops))) /\ pw_metrics u (prun u w ops) <> None.
Proof.
  intros Hw. induction ops as [|op ops IH] using rev_ind; [exact Hw|]. rewrite prun_app. cbn [prun fold_left]. fold (prun u w ops). set (w1 := prun u w ops) in *. cbn [pstep pw_w pw_metrics].
  destruct op as [Xa ya Xe ye|o|sc]; cbn [mstep mw_s]; [|exact IH|exact IH]. rewrite fit_flag.
  destruct (snd (fit_mon u (mw_sc u (pw_w u w1)) (mw_o u (pw_w u w1)) Xa ya Xe ye (mw_s u (pw_w u w1)))) as [[]|x] eqn:E; intros H.
  - split; [apply fit_shown; now left|]. destruct (fit_metrics _ _ _ _ _ _ _ E) as [mt [-> _]]. discriminate.
  - destruct (IH H) as [I1 I2]. split; [apply fit_shown; now right|]. destruct (new_metrics _ _ _ _ _ _ _); [discriminate|exact I2].
Qed.
End Mon.
