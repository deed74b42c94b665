(** Histories of calls on OptimalBinningSketch objects. *)
From Coq Require Import List ZArith Bool QArith Permutation.
From Verif Require Import Model.Arr Model.Core Model.GK Model.BSketch Model.OptSketch Model.SketchLife Spec.BSketchSpec.
Import ListNotations.
Open Scope Z_scope.

(** Creation, [add] (with [None] for arrays which are refused), [solve], and merging another object with its own
    history into this one. *)
Inductive shist :=
| SNew
| SAdd (h : shist) (c : option (list (rec_ Z)))
| SSolve (h : shist)
| SMerge (h other : shist).

(** The object, and how its last call ended. *)
Fixpoint run_obj (e : Q) (d : divergence) (solver : opt_solver) (m : nat) (h : shist) : nst * res unit :=
  match h with
  | SNew => (n_new, Ok tt)
  | SAdd h c => n_add e (fst (run_obj e d solver m h)) c
  | SSolve h => n_solve d solver m (fst (run_obj e d solver m h))
  | SMerge h o => n_merge (fst (run_obj e d solver m h)) (fst (run_obj e d solver m o))
  end.
Definition object (e : Q) (d : divergence) (solver : opt_solver) (m : nat) (h : shist) : nst := fst (run_obj e d solver m h).
Definition outcome (e : Q) (d : divergence) (solver : opt_solver) (m : nat) (h : shist) : res unit := snd (run_obj e d solver m h).

Fixpoint run_cat (cutoff : option Q) (solver : Z -> list Z -> list Z -> res (list bool)) (h : shist) : cst * res unit :=
  match h with
  | SNew => (c_new_obj, Ok tt)
  | SAdd h c => c_add_obj (fst (run_cat cutoff solver h)) c
  | SSolve h => c_solve_obj solver cutoff (fst (run_cat cutoff solver h))
  | SMerge h o => c_merge_obj (fst (run_cat cutoff solver h)) (fst (run_cat cutoff solver o))
  end.
Definition cat_object cutoff solver h : cst := fst (run_cat cutoff solver h).
Definition cat_outcome cutoff solver h : res unit := snd (run_cat cutoff solver h).

(** All the records the object should know. *)
Fixpoint records (h : shist) : list (rec_ Z) :=
  match h with
  | SNew => []
  | SAdd h (Some l) => records h ++ l
  | SAdd h None | SSolve h => records h
  | SMerge h o => records h ++ records o
  end.
(** Accepted [add] calls on the object itself. *)
Fixpoint own_adds (h : shist) : nat :=
  match h with
  | SNew => 0
  | SAdd h (Some _) => S (own_adds h)
  | SAdd h None | SSolve h | SMerge h _ => own_adds h
  end.

(** In every merge both objects hold at least one record that is neither missing nor special. *)
Fixpoint clean_merges (h : shist) : Prop :=
  match h with
  | SNew => True
  | SAdd h _ | SSolve h => clean_merges h
  | SMerge h o => clean_merges h /\ clean_merges o /\ has_clean (records h) /\ has_clean (records o)
  end.
(** n records are few enough for the quantile sketches to be exact. *)
Definition few (e : Q) (l : list (rec_ Z)) : Prop := (e * inject_Z (Z.of_nat (length l) - 1) < 1)%Q.
(** Every object merged into another one holds few records (then the merge loses nothing, C33). *)
Fixpoint small_merges (e : Q) (h : shist) : Prop :=
  match h with
  | SNew => True
  | SAdd h _ | SSolve h => small_merges e h
  | SMerge h o => small_merges e h /\ small_merges e o /\ few e (records o)
  end.

(** The history up to the last [solve] that ended without an exception. *)
Definition is_ok {A} (r : res A) : bool := match r with Ok _ => true | Err _ => false end.
Fixpoint last_good (e : Q) (d : divergence) (solver : opt_solver) (m : nat) (h : shist) : option shist :=
  match h with
  | SNew => None
  | SAdd h _ | SMerge h _ => last_good e d solver m h
  | SSolve h => if is_ok (outcome e d solver m (SSolve h)) then Some h else last_good e d solver m h
  end.
(** The successful solves of the object, most recent first. *)
Fixpoint good_solves (e : Q) (d : divergence) (solver : opt_solver) (m : nat) (h : shist) : list shist :=
  match h with
  | SNew => []
  | SAdd h _ | SMerge h _ => good_solves e d solver m h
  | SSolve h => (if is_ok (outcome e d solver m (SSolve h)) then [h] else []) ++ good_solves e d solver m h
  end.

(** The optimizer, when it does not raise, selects prebins and always keeps the last one. *)
Definition opt_ok (solver : opt_solver) : Prop :=
  forall f n a b sol, length a = length b -> (2 <= length a)%nat -> solver f n a b = Ok sol ->
    length sol = length a /\ last sol false = true.

(** Clean values of the records with target [y]. *)
Definition values_of (y : bool) (l : list (rec_ Z)) : list Z := clean_of y l.

(** Some [add] was called on the object itself. *)
Fixpoint touched (h : shist) : bool :=
  match h with SNew => false | SAdd _ _ => true | SSolve h | SMerge h _ => touched h end.
(** Only objects on which [add] was called are merged (otherwise merge raises). *)
Fixpoint made_merges (h : shist) : Prop :=
  match h with
  | SNew => True
  | SAdd h _ | SSolve h => made_merges h
  | SMerge h o => made_merges h /\ made_merges o /\ touched h = true /\ touched o = true
  end.
(** The last [solve], whether it raised or not, and the last one that did not. *)
Fixpoint last_solve (h : shist) : option shist :=
  match h with SNew => None | SAdd h _ | SMerge h _ => last_solve h | SSolve h => Some h end.
Fixpoint cat_last_good cutoff solver (h : shist) : option shist :=
  match h with
  | SNew => None
  | SAdd h _ | SMerge h _ => cat_last_good cutoff solver h
  | SSolve h => if is_ok (cat_outcome cutoff solver (SSolve h)) then Some h else cat_last_good cutoff solver h
  end.
