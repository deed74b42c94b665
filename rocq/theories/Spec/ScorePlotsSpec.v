(** Vocabulary for C90: what the CAP and KS figures are expected to show. *)
From Coq Require Import List ZArith QArith Bool Arith Sorting Permutation.
From Verif Require Import Model.Arr Model.ScorePlots.
Import ListNotations.
Open Scope nat_scope.

(** argsort: a permutation of the positions that puts the values in increasing order (equal values in any order). *)
Definition argsort_ok (argsort : list Z -> list nat) : Prop :=
  forall l, Permutation (argsort l) (seq 0 (length l)) /\ StronglySorted Z.le (map (fun i => nth i l 0%Z) (argsort l)).
(** Scored data: one score per target; targets 0 and 1, both present. *)
Definition scored (y p : list Z) : Prop := length y = length p /\ (forall v, In v y -> v = 0 \/ v = 1)%Z /\ In 0%Z y /\ In 1%Z y.
(** The number of records of class cls (any class if None) whose score satisfies f. *)
Definition number (y p : list Z) (cls : option Z) (f : Z -> bool) : Z :=
  Z.of_nat (length (filter (fun r => (match cls with Some c => (fst r =? c)%Z | None => true end) && f (snd r)) (combine y p))).
Definition total (y p : list Z) (cls : option Z) : Z := number y p cls (fun _ => true).
(** The share of class cls with a score at most t, above t. *)
Definition share_upto (y p : list Z) (cls t : Z) : Q := frac (number y p (Some cls) (fun s => (s <=? t)%Z)) (total y p (Some cls)).
Definition share_above (y p : list Z) (cls t : Z) : Q := frac (number y p (Some cls) (fun s => (t <? s)%Z)) (total y p (Some cls)).
(** Pairs of an event and a non-event with the same score; Gini = 2 AUC - 1, a pair counting 1 if the event has the larger score, 1/2 if equal. *)
Definition pairs (y p : list Z) (f : Z -> Z -> bool) : Z :=
  zsum (map (fun r => if (fst r =? 1)%Z then number y p (Some 0%Z) (f (snd r)) else 0%Z) (combine y p)).
Definition ties (y p : list Z) : Z := pairs y p (fun a b => (a =? b)%Z).
Definition auc_of (y p : list Z) : Q :=
  ((inject_Z (pairs y p (fun a b => (b <? a)%Z)) + inject_Z (ties y p) / 2) / inject_Z (total y p (Some 1%Z) * total y p (Some 0%Z)))%Q.
(** The area under a polygonal line. *)
Fixpoint area (l : list (Q * Q)) : Q :=
  match l with a :: ((b :: _) as r) => ((fst b - fst a) * (snd a + snd b) / 2 + area r)%Q | _ => 0%Q end.
(** two scores are never equal *)
Definition distinct_scores (p : list Z) : Prop := NoDup p.
