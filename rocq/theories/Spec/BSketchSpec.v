(** Programs over a store of binning sketches and what each sketch should hold. *)
From Coq Require Import List ZArith Bool QArith.
From Verif Require Import Model.Arr Model.GK Model.BSketch.
Import ListNotations.
Open Scope Z_scope.

Inductive op :=
| ONew                               (* create a sketch *)
| OAdd (i : nat) (l : list (rec_ Z)) (* sketches[i].add(x, y) *)
| OMerge (i j : nat).                (* sketches[i].merge(sketches[j]) *)

Definition step (e : Q) (w : world) (o : op) : res world :=
  match o with
  | ONew => Ok (b_new e w)
  | OAdd i l => b_add w i l
  | OMerge i j => b_merge w i j
  end.
Definition cstep (w : cworld) (o : op) : res cworld :=
  match o with
  | ONew => Ok (c_new w)
  | OAdd i l => c_add w i l
  | OMerge i j => c_merge w i j
  end.
Fixpoint exec {W} (st : W -> op -> res W) (w : W) (p : list op) : res W :=
  match p with [] => Ok w | o :: r => rbind (st w o) (fun w' => exec st w' r) end.
Definition run (e : Q) (p : list op) : res world := exec (step e) (mkW [] []) p.
Definition crun (p : list op) : res cworld := exec cstep (mkCW [] []) p.

(** What sketch number k should hold: the records added to it and those of the sketches merged into it
    (as they were at that time). *)
Definition recs_step (s : list (list (rec_ Z))) (o : op) : list (list (rec_ Z)) :=
  match o with
  | ONew => s ++ [[]]
  | OAdd i l => set_nth i (nth i s [] ++ l) s
  | OMerge i j => set_nth i (nth i s [] ++ nth j s []) s
  end.
Definition recs (p : list op) : list (list (rec_ Z)) := fold_left recs_step p [].
Definition held (p : list op) (k : nat) : list (rec_ Z) := nth k (recs p) [].

Definition events (l : list (rec_ Z)) : Z := countb (fun r => ry r) l.
Definition nonevents (l : list (rec_ Z)) : Z := countb (fun r => negb (ry r)) l.
Definition has_clean (l : list (rec_ Z)) : Prop := exists r v, In r l /\ rk r = Clean v.

(** Programs where indices are in range and each sketch is merged away at most once and not used afterwards
    ([dead]), as in a distributed reduction. *)
Fixpoint linear_from (n : nat) (dead : list nat) (p : list op) : Prop :=
  match p with
  | [] => True
  | ONew :: r => linear_from (S n) dead r
  | OAdd i _ :: r => (i < n)%nat /\ ~ In i dead /\ linear_from n dead r
  | OMerge i j :: r => (i < n)%nat /\ (j < n)%nat /\ i <> j /\ ~ In i dead /\ ~ In j dead /\ linear_from n (j :: dead) r
  end.
Definition linear (p : list op) : Prop := linear_from 0 [] p.
Fixpoint dead_after (dead : list nat) (p : list op) : list nat :=
  match p with
  | [] => dead
  | OMerge i j :: r => dead_after (j :: dead) r
  | _ :: r => dead_after dead r
  end.
Definition alive (p : list op) (k : nat) : Prop := (k < length (recs p))%nat /\ ~ In k (dead_after [] p).

(** In every merge, each of the two sketches either holds a clean (non-missing, non-special) record or
    nothing at all. *)
Definition clean_or_empty (l : list (rec_ Z)) : Prop := l = [] \/ has_clean l.
Fixpoint merges_clean_from (s : list (list (rec_ Z))) (p : list op) : Prop :=
  match p with
  | [] => True
  | OMerge i j :: r => clean_or_empty (nth i s []) /\ clean_or_empty (nth j s []) /\
                       merges_clean_from (recs_step s (OMerge i j)) r
  | o :: r => merges_clean_from (recs_step s o) r
  end.
Definition merges_clean (p : list op) : Prop := merges_clean_from [] p.

(** In every merge, the receiving sketch holds a clean record (so that nothing is shared). *)
Fixpoint merges_nonempty_from (s : list (list (rec_ Z))) (p : list op) : Prop :=
  match p with
  | [] => True
  | OMerge i j :: r => (i < length s)%nat /\ (j < length s)%nat /\ i <> j /\ has_clean (nth i s []) /\
                       clean_or_empty (nth j s []) /\ merges_nonempty_from (recs_step s (OMerge i j)) r
  | OAdd i l :: r => (i < length s)%nat /\ merges_nonempty_from (recs_step s (OAdd i l)) r
  | o :: r => merges_nonempty_from (recs_step s o) r
  end.
Definition merges_nonempty (p : list op) : Prop := merges_nonempty_from [] p.

(** Records of category k with target y. *)
Definition in_cat (k : Z) (y : bool) (l : list (rec_ Z)) : Z :=
  countb (fun r => match rk r with Clean v => Z.eqb v k && Bool.eqb (ry r) y | _ => false end) l.
Definition missing_of (y : bool) (l : list (rec_ Z)) : Z := countb (fun r => is_missing r && Bool.eqb (ry r) y) l.
Definition special_of (y : bool) (l : list (rec_ Z)) : Z := countb (fun r => is_special r && Bool.eqb (ry r) y) l.
