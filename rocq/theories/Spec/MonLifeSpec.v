(** Vocabulary for C76. A sample of a binary problem is (y == 0, score). *)
From Coq Require Import List ZArith QArith Reals Bool.
From Verif Require Import Model.Arr Model.Core Model.Process Model.Classif Model.Monitor Model.MonLife Spec.CoreSpec Spec.MonitorSpec Spec.ClassifSpec.
Import ListNotations.
Open Scope Z_scope.

(** [c] samples of [d] satisfy [P] *)
Definition n_where {A} (P : A -> Prop) (d : list A) (c : Z) : Prop :=
  exists sel, (forall s, sel s = true <-> P s) /\ c = Z.of_nat (length (filter sel d)).
Definition in_score_bin (splits : list Z) (i : nat) (s : ssample) : Prop := in_right_bin_i splits i (snd s).
Definition event_in_bin (splits : list Z) (i : nat) (s : ssample) : Prop := fst s = false /\ in_right_bin_i splits i (snd s).
(** both data sets reach the score bin, and it holds events and non-events *)
Definition populated (splits : list Z) (a e : list ssample) (i : nat) : Prop :=
  exists na ne ea ee, n_where (in_score_bin splits i) a na /\ n_where (in_score_bin splits i) e ne /\
    n_where (event_in_bin splits i) a ea /\ n_where (event_in_bin splits i) e ee /\ 0 < na /\ 0 < ne /\ 0 < ea + ee < na + ne.
(** some fit of the history succeeded *)
Definition fitted_by {u} (w : mworld u) (ops : list (mop u)) : Prop :=
  exists pre Xa ya Xe ye post, ops = pre ++ Fit Xa ya Xe ye :: post /\
    snd (fit_mon u (mw_sc u (mrun u w pre)) (mw_o u (mrun u w pre)) Xa ya Xe ye (mw_s u (mrun u w pre))) = Ok tt.
(** mean of the targets of the records whose score lies in bin i: None when there is none *)
Definition mean_in_bin (splits : list Z) (d : list (Z * Z)) (i : nat) (m : option Q) : Prop :=
  exists sel, (forall s, sel s = true <-> in_right_bin_i splits i (snd s)) /\
    match filter sel d with [] => m = None | l => m = Some (inject_Z (zsum (map fst l)) / inject_Z (Z.of_nat (length l)))%Q end.
(** the performance metrics [m], Gini [g] shown for the frame [X] with targets [y0] (y == 0) *)
Definition performance_of {F} (sc : scard F) (X : F) (y0 : list bool) (m : class_metrics) (g : option Q) : Prop :=
  exists pred proba, sc_pred sc X = Ok pred /\ sc_proba sc X = Ok proba /\ length pred = length y0 /\ length proba = length y0 /\
    imbalanced_metrics (combine (map negb y0) pred) = Some m /\
    let d := combine (map negb y0) proba in
    let n := Z.of_nat (length (events d)) * Z.of_nat (length (nonevents d)) in
    if n =? 0 then g = None else exists q, g = Some q /\ (q == inject_Z (concordant d - discordant d) / inject_Z n)%Q.
Definition target_of (y0 : list bool) (t : Z * Z * Z * Q) : Prop :=
  let ev := Z.of_nat (length (filter negb y0)) in let n := Z.of_nat (length y0) in t = (n, ev, n - ev, (inject_Z ev / inject_Z n)%Q).
