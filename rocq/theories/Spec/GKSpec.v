(** What a user of the quantile sketch relies on, in terms of the values added to it. *)
From Coq Require Import List ZArith Bool QArith Qround.
From Verif Require Import Model.Arr Model.GK.
Import ListNotations.
Open Scope Z_scope.

(** A history of calls on sketches created with [GK(eps)]: creation, [add], [quantile], [len], and
    merging another sketch with its own history into this one. *)
Inductive hist :=
| HNew
| HAdd (h : hist) (v : Z)
| HQuery (h : hist) (q : Q)
| HLen (h : hist)
| HMerge (h other : hist)            (* h.merge(other): the state of h *)
| HMerged (other h : hist).          (* h.merge(other): the state of other *)

(** The sketch a history leaves (an exception leaves the object as it was: [quantile] only raises before it
    changes anything, [merge] of sketches sharing eps never raises, see [C33_merge_total]). *)
Fixpoint build (e : Q) (h : hist) : gk :=
  match h with
  | HNew => gk_new e
  | HAdd h v => add (build e h) v
  | HQuery h q => match quantile (build e h) q with Ok (_, s) => s | Err _ => build e h end
  | HLen h => snd (gk_len (build e h))
  | HMerge h o => match gk_merge (build e h) (build e o) with Ok (s, _) => s | Err _ => build e h end
  | HMerged o h => match gk_merge (build e h) (build e o) with Ok (_, s) => s | Err _ => build e o end
  end.

(** All the values added, whichever the order. *)
Fixpoint values (h : hist) : list Z :=
  match h with
  | HNew => []
  | HAdd h v => v :: values h
  | HQuery h _ | HLen h => values h
  | HMerge h o => values h ++ values o
  | HMerged o _ => values o
  end.

(** Histories without merges, or merging only sketches so small that their quantiles are exact
    (eps * (n - 1) < 1), or merging into a sketch which is still empty. *)
Definition nvals (h : hist) : Z := Z.of_nat (length (values h)).
Fixpoint lossless (e : Q) (h : hist) : Prop :=
  match h with
  | HNew => True
  | HAdd h _ | HQuery h _ | HLen h => lossless e h
  | HMerge h o => lossless e h /\ lossless e o /\ (values h = [] \/ (e * inject_Z (nvals o - 1) < 1)%Q)
  | HMerged o h => lossless e o
  end.

(** Ranks are 1-based positions in the sorted list of the values; a repeated value has several ranks. *)
Definition below (v : Z) (l : list Z) : Z := Z.of_nat (length (filter (fun x => Z.ltb x v) l)).
Definition upto (v : Z) (l : list Z) : Z := Z.of_nat (length (filter (fun x => Z.leb x v) l)).
Definition has_rank (v : Z) (l : list Z) (r : Z) : Prop := below v l + 1 <= r <= upto v l.

(** Total weight held by a sketch: entries plus buffered values. *)
Definition weight (s : gk) : Z := zsum (map eg (entries s)) + Z.of_nat (length (incoming s)).

Definition is_minimum (m : Z) (l : list Z) : Prop := In m l /\ Forall (fun x => m <= x) l.
Definition is_maximum (m : Z) (l : list Z) : Prop := In m l /\ Forall (fun x => x <= m) l.
