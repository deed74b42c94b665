(** Pair counts and cumulative shares for the classification metrics. *)
From Coq Require Import List ZArith QArith Bool Sorting Permutation.
From Verif Require Import Model.Classif.
Import ListNotations.
Open Scope Z_scope.

Definition events (d : list ysample) : list Z := map snd (filter (fun s => fst s) d).
Definition nonevents (d : list ysample) : list Z := map snd (filter (fun s => negb (fst s)) d).
(** number of pairs (event score, nonevent score) satisfying p *)
Definition pairs (p : Z -> Z -> bool) (d : list ysample) : Z :=
  Z.of_nat (length (filter (fun ab => p (fst ab) (snd ab)) (list_prod (events d) (nonevents d)))).
Definition concordant := pairs (fun e n => n <? e).
Definition discordant := pairs (fun e n => e <? n).

(** labels of the samples in increasing order of score, ties in any order *)
Definition sorted_labels (d : list ysample) (yy : list bool) : Prop :=
  exists d', Permutation d d' /\ StronglySorted (fun a b => snd a <= snd b) d' /\ yy = map fst d'.
(** number of labels of a class *)
Definition count_label (b : bool) (l : list bool) : Z := Z.of_nat (length (filter (Bool.eqb b) l)).
(** share of the nonevents (events) among the k lowest scores *)
Definition share_among (b : bool) (yy : list bool) (k : nat) : Q :=
  (inject_Z (count_label b (firstn k yy)) / inject_Z (count_label b yy))%Q.
(** Kolmogorov-Smirnov statistic (one-sided, nonevents having the lower scores): the largest gap between the two cumulative
    distributions after k = 1..n samples *)
Definition is_ks (yy : list bool) (v : Q) : Prop :=
  (exists k, (1 <= k <= length yy)%nat /\ v == share_among false yy k - share_among true yy k)%Q /\
  (forall k, (1 <= k <= length yy)%nat -> share_among false yy k - share_among true yy k <= v)%Q.
