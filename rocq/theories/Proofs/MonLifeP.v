(** Proofs for C76. *)
From Coq Require Import List ZArith QArith Bool Arith Lia Reals Lra Sorting.
From Verif Require Import Model.Arr Model.Core Model.Multi Model.Metrics Model.MultiT Model.MultiTable Model.Process Model.Classif Model.Monitor Model.MonLife
  Spec.CoreSpec Spec.MonitorSpec Spec.MonLifeSpec Proofs.ArrP Proofs.CoreP Proofs.MonitorP Proofs.IndepP.
Import ListNotations.
Open Scope Z_scope.

Section Life.
Variable u : outside.

(** a fit that succeeds computes the same state from every old state *)
Lemma finish_outcome sc Xa Xe sp na ne s : snd (finish_fit u sc Xa Xe sp na ne s) = match fit_vars sc Xa Xe with Err x => Err x | Ok _ => Ok tt end.
Proof. unfold finish_fit. cbv zeta. destruct (fit_vars sc Xa Xe); reflexivity. Qed.
Ltac crush :=
  repeat match goal with
  | |- context [match ?x with _ => _ end] => destruct x eqn:?
  | |- context [if ?x then _ else _] => destruct x eqn:?
  end.
Lemma fit_outcome sc o Xa ya Xe ye s s' : snd (fit_mon u sc o Xa ya Xe ye s) = snd (fit_mon u sc o Xa ya Xe ye s').
Proof.
  unfold fit_mon, fit_binary, fit_continuous, finish_fit. cbv zeta. destruct (negb (u_check u o)); [reflexivity|]. destruct (negb (sc_fitted sc)); [reflexivity|].
  destruct ya as [ya|ya|], ye as [ye|ye|]; cbn [type_of dtype_eqb negb]; try reflexivity; destruct (negb (names_eqb _ _)); try reflexivity;
    destruct (sc_score sc Xa) as [za|]; try reflexivity; destruct (sc_score sc Xe) as [ze|]; try reflexivity; destruct (u_prebin u o ze _) as [sp|]; try reflexivity;
    destruct (negb _); try reflexivity.
  - destruct (tests_loop _ _ _ _); try reflexivity. destruct (perf_binary _ _ _ _ _); try reflexivity. destruct (fit_vars sc Xa Xe); reflexivity.
  - destruct (perf_cont _ _ _ _ _ _); try reflexivity. destruct (fit_vars sc Xa Xe); reflexivity.
Qed.
Lemma fit_forgets sc o Xa ya Xe ye s s' : snd (fit_mon u sc o Xa ya Xe ye s) = Ok tt -> fst (fit_mon u sc o Xa ya Xe ye s) = fst (fit_mon u sc o Xa ya Xe ye s').
Proof.
  unfold fit_mon, fit_binary, fit_continuous, finish_fit. cbv zeta. destruct (negb (u_check u o)); [discriminate|]. destruct (negb (sc_fitted sc)); [discriminate|].
  destruct ya as [ya|ya|], ye as [ye|ye|]; cbn [type_of dtype_eqb negb]; try discriminate; destruct (negb (names_eqb _ _)); try discriminate;
    destruct (sc_score sc Xa) as [za|]; try discriminate; destruct (sc_score sc Xe) as [ze|]; try discriminate; destruct (u_prebin u o ze _) as [sp|]; try discriminate;
    destruct (negb _); try discriminate.
  - destruct (tests_loop _ _ _ _); try discriminate. destruct (perf_binary _ _ _ _ _); try discriminate. destruct (fit_vars sc Xa Xe); try discriminate. reflexivity.
  - destruct (perf_cont _ _ _ _ _ _); try discriminate. destruct (fit_vars sc Xa Xe); try discriminate. reflexivity.
Qed.
Definition complete (s : mstate) : Prop :=
  ms_psi s <> None /\ ms_tests s <> None /\ ms_target s <> None /\ ms_perf s <> None /\ ms_splits s <> None /\ ms_vars s <> None.
Lemma fit_flag sc o Xa ya Xe ye s : ms_fitted (fst (fit_mon u sc o Xa ya Xe ye s)) = match snd (fit_mon u sc o Xa ya Xe ye s) with Ok _ => true | Err _ => ms_fitted s end.
Proof.
  unfold fit_mon, fit_binary, fit_continuous, finish_fit. cbv zeta. destruct (negb (u_check u o)); [reflexivity|]. destruct (negb (sc_fitted sc)); [reflexivity|].
  destruct ya as [ya|ya|], ye as [ye|ye|]; cbn [type_of dtype_eqb negb]; try reflexivity; destruct (negb (names_eqb _ _)); try reflexivity;
    destruct (sc_score sc Xa) as [za|]; try reflexivity; destruct (sc_score sc Xe) as [ze|]; try reflexivity; destruct (u_prebin u o ze _) as [sp|]; try reflexivity;
    destruct (negb _); try reflexivity.
  - destruct (tests_loop _ _ _ _); try reflexivity. destruct (perf_binary _ _ _ _ _); try reflexivity. destruct (fit_vars sc Xa Xe); reflexivity.
  - destruct (perf_cont _ _ _ _ _ _); try reflexivity. destruct (fit_vars sc Xa Xe); reflexivity.
Qed.
Lemma fit_complete sc o Xa ya Xe ye s : snd (fit_mon u sc o Xa ya Xe ye s) = Ok tt \/ complete s -> complete (fst (fit_mon u sc o Xa ya Xe ye s)).
Proof.
  unfold complete. intros H. unfold fit_mon, fit_binary, fit_continuous, finish_fit in *. cbv zeta in *. destruct (negb (u_check u o)); [destruct H; [discriminate|assumption]|]. destruct (negb (sc_fitted sc)); [destruct H; [discriminate|assumption]|].
  destruct ya as [ya|ya|], ye as [ye|ye|]; cbn [type_of dtype_eqb negb] in *; try (destruct H; [discriminate|assumption]); destruct (negb (names_eqb _ _)); try (destruct H; [discriminate|assumption]);
    destruct (sc_score sc Xa) as [za|]; try (destruct H; [discriminate|assumption]); destruct (sc_score sc Xe) as [ze|]; try (destruct H; [discriminate|assumption]); destruct (u_prebin u o ze _) as [sp|]; try (destruct H; [discriminate|assumption]);
    destruct (negb _); try (destruct H; [discriminate|assumption]).
  - destruct (tests_loop _ _ _ _); [|destruct H; [discriminate|]; cbn; intuition discriminate]. destruct (perf_binary _ _ _ _ _); [|destruct H; [discriminate|]; cbn; intuition discriminate].
    destruct (fit_vars sc Xa Xe); [cbn; repeat split; discriminate|destruct H; [discriminate|]; cbn; intuition discriminate].
  - destruct (perf_cont _ _ _ _ _ _); [|destruct H; [discriminate|]; cbn; intuition discriminate].
    destruct (fit_vars sc Xa Xe); [cbn; repeat split; discriminate|destruct H; [discriminate|]; cbn; intuition discriminate].
Qed.

(** ** histories *)
Lemma mrun_app w a b : mrun u w (a ++ b) = mrun u (mrun u w a) b.
Proof. apply fold_left_app. Qed.
Lemma run_flag ops : forall w, ms_fitted (mw_s u w) = false -> (ms_fitted (mw_s u (mrun u w ops)) = true <-> fitted_by w ops).
Proof.
  induction ops as [|op ops IH] using rev_ind; intros w Hw.
  - cbn. split; [congruence|]. intros (pre & Xa & ya & Xe & ye & post & E & _). destruct pre; discriminate.
  - rewrite mrun_app. cbn [mrun fold_left]. fold (mrun u w ops). specialize (IH w Hw). set (w1 := mrun u w ops) in *.
    assert (Old : fitted_by w ops -> fitted_by w (ops ++ [op])).
    { intros (pre & Xa & ya & Xe & ye & post & E & H). exists pre, Xa, ya, Xe, ye, (post ++ [op]). split; [rewrite E, <- app_assoc; reflexivity|exact H]. }
    assert (Last : fitted_by w (ops ++ [op]) -> fitted_by w ops \/ exists Xa ya Xe ye, op = Fit Xa ya Xe ye /\ snd (fit_mon u (mw_sc u w1) (mw_o u w1) Xa ya Xe ye (mw_s u w1)) = Ok tt).
    { intros (pre & Xa & ya & Xe & ye & post & E & H). destruct post as [|x post] using rev_ind.
      - apply app_inj_tail in E as [-> ->]. right. exists Xa, ya, Xe, ye. split; [reflexivity|exact H].
      - rewrite app_comm_cons, app_assoc in E. apply app_inj_tail in E as [-> ->]. left. exists pre, Xa, ya, Xe, ye, post. auto. }
    destruct op as [Xa ya Xe ye|o|sc]; cbn [mstep mw_s].
    + rewrite fit_flag. destruct (snd (fit_mon _ _ _ _ _ _ _ _)) as [[]|x] eqn:E.
      * split; [|reflexivity]. intros _. exists ops, Xa, ya, Xe, ye, []. split; [reflexivity|]. exact E.
      * rewrite IH. split; [exact Old|]. intros H. apply Last in H as [H|(Xa' & ya' & Xe' & ye' & [= -> -> -> ->] & H)]; [exact H|congruence].
    + rewrite IH. split; [exact Old|]. intros H. apply Last in H as [H|(? & ? & ? & ? & [=] & _)]. exact H.
    + rewrite IH. split; [exact Old|]. intros H. apply Last in H as [H|(? & ? & ? & ? & [=] & _)]. exact H.
Qed.
Lemma run_complete ops : forall w, (ms_fitted (mw_s u w) = true -> complete (mw_s u w)) -> ms_fitted (mw_s u (mrun u w ops)) = true -> complete (mw_s u (mrun u w ops)).
Proof.
  induction ops as [|op ops IH] using rev_ind; intros w Hw; [exact Hw|]. rewrite mrun_app. cbn [mrun fold_left]. fold (mrun u w ops). specialize (IH w Hw). set (w1 := mrun u w ops) in *.
  destruct op as [Xa ya Xe ye|o|sc]; cbn [mstep mw_s]; [|exact IH|exact IH].
  rewrite fit_flag. intros H. apply fit_complete. destruct (snd (fit_mon _ _ _ _ _ _ _ _)) as [[]|x]; [now left|right; now apply IH].
Qed.
End Life.
