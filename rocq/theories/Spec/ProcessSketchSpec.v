(** What a user of BinningProcessSketch relies on: every variable behaves like an OptimalBinningSketch of its own. *)
From Coq Require Import List ZArith Bool.
From Verif Require Import Model.Arr Model.Core Model.Process Model.ProcessSketch.
Import ListNotations.
Open Scope Z_scope.

(** The life of a single OptimalBinningSketch *)
Inductive life (C : Type) := LNew | LAdd (l : life C) (c : C) | LMerge (l l2 : life C) | LSolve (l : life C).
Arguments LNew {C}. Arguments LAdd {C}. Arguments LMerge {C}. Arguments LSolve {C}.
Fixpoint live {D C T} (ops : sk_ops D C T) (s : sk_opts) (l : life C) : res (osk D T) :=
  match l with
  | LNew => Ok (k_init s)
  | LAdd l c => rbind (live ops s l) (fun k => and_then (k_add ops k c))
  | LMerge l l2 => rbind (live ops s l) (fun k => rbind (live ops s l2) (fun k2 => and_then (k_merge ops k k2)))
  | LSolve l => rbind (live ops s l) (fun k => and_then (k_solve ops k))
  end.
(** the column of a variable in a batch *)
Definition column_of {C} (v : name) (cols : list (name * C)) : option C := option_map snd (find (fun vc => fst vc =? v) cols).
(** what one variable sees of a history: the batches that contain its column *)
Fixpoint seen_by {C} (v : name) (h : hist C) : life C :=
  match h with
  | HNew => LNew
  | HAdd h cols _ => match column_of v cols with Some c => LAdd (seen_by v h) c | None => seen_by v h end
  | HMerge h h2 => LMerge (seen_by v h) (seen_by v h2)
  | HSolve h => LSolve (seen_by v h)
  end.
(** DataFrames with distinct column names *)
Fixpoint frames_ok {C} (h : hist C) : Prop :=
  match h with
  | HNew => True
  | HAdd h cols _ => frames_ok h /\ NoDup (map fst cols)
  | HMerge h h2 => frames_ok h /\ frames_ok h2
  | HSolve h => frames_ok h
  end.
(** rows added to this process (not to the processes merged into it), and all rows behind it *)
Fixpoint own_rows {C} (h : hist C) : Z :=
  match h with HNew => 0 | HAdd h _ r => own_rows h + r | HMerge h _ => own_rows h | HSolve h => own_rows h end.
Fixpoint all_rows {C} (h : hist C) : Z :=
  match h with HNew => 0 | HAdd h _ r => all_rows h + r | HMerge h h2 => all_rows h + all_rows h2 | HSolve h => all_rows h end.
(** numbers of rows are not negative *)
Fixpoint rows_ok {C} (h : hist C) : Prop :=
  match h with HNew => True | HAdd h _ r => rows_ok h /\ 0 <= r | HMerge h h2 => rows_ok h /\ rows_ok h2 | HSolve h => rows_ok h end.
(** the variable appears in some batch added to this process *)
Fixpoint appears {C} (v : name) (h : hist C) : Prop :=
  match h with
  | HNew => False
  | HAdd h cols _ => appears v h \/ In v (map fst cols)
  | HMerge h _ => appears v h
  | HSolve h => appears v h
  end.
