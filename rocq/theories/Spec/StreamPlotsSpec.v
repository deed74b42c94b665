(** Vocabulary for C91. *)
From Coq Require Import List ZArith QArith Reals Bool.
From Verif Require Import Model.Arr Model.Core Model.BSketch Model.OptSketch Model.SketchLife Model.Progress Model.MonLife Model.PsiPlot Spec.SketchLifeSpec.
Import ListNotations.
Open Scope Z_scope.

(** a sketch object with the history h of calls *)
Fixpoint sketch_object (e : Q) (d : divergence) (solver : opt_solver) (m : nat) (h : shist) : sobj :=
  match h with
  | SNew => so_new
  | SAdd h c => so_add e (sketch_object e d solver m h) c
  | SSolve h => so_solve d solver m (sketch_object e d solver m h)
  | SMerge h o => so_merge (sketch_object e d solver m h) (sketch_object e d solver m o)
  end.
Definition n_of (h : shist) : Z := Z.of_nat (length (records h)).
(** calls other than fit *)
Definition quiet {u} (op : mop u) : Prop := match op with Fit _ _ _ _ => False | _ => True end.
Definition qsum (l : list Q) : Q := fold_right Qplus 0%Q l.
Definition sum_of (l : list (Q * option Q)) : Q := qsum (map (fun r => match snd r with Some q => q | None => 0%Q end) l).
Definition at_ (i : nat) : Q := inject_Z (Z.of_nat i).
