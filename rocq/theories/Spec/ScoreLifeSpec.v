(** Vocabulary for C74: histories of calls on a Scorecard. *)
From Coq Require Import List ZArith Bool Reals.
From Verif Require Import Model.Arr Model.Core Model.Process Model.Scorecard Model.ScoreLife.
Import ListNotations.

(** The calls of a history with what each of them returned. *)
Fixpoint outcomes {w} (s : state w) (h : list (call w)) : list (call w * res (answer w)) :=
  match h with [] => [] | c :: r => (c, snd (step s c)) :: outcomes (fst (step s c)) r end.
(** Some fit of the history returned normally. *)
Definition some_fit_succeeded {w} (s : state w) (h : list (call w)) : Prop :=
  exists X y sw ms mm, In (CFit X y sw ms mm, Ok AUnit) (outcomes s h).
Definition is_fit {w} (c : call w) : Prop := match c with CFit _ _ _ _ _ => True | _ => False end.
Definition is_read {w} (c : call w) : Prop := match c with CPredict _ _ | CScore _ | CTable => True | _ => False end.
(** The object as it is after being created with [o0] and the calls [h], with its parameters then set to [o]. *)
Definition object {w} (o0 : params w) (h : list (call w)) (o : params w) : state w := run (new_object o0) (h ++ [CSet o]).
(** Every set of parameters the object ever had satisfies P. *)
Definition always {w} (P : params w -> Prop) (o0 : params w) (h : list (call w)) : Prop :=
  P o0 /\ forall o, In (CSet o) h -> P o.
(** Two frames with the same rows and the same columns under the names [N] (in any order, whatever other columns they have). *)
Definition same_columns (N : list name) (f f' : frame) : Prop :=
  fr_rows f = fr_rows f' /\ forall n, In n N -> dget (fr_cols f) n = dget (fr_cols f') n.
(** The call with another frame *)
Inductive same_call {w} (N : list name) : call w -> call w -> Prop :=
| same_fit : forall f f' y sw ms mm, same_columns N f f' -> same_call N (CFit (DFrame f) y sw ms mm) (CFit (DFrame f') y sw ms mm)
| same_predict : forall k f f', same_columns N f f' -> same_call N (CPredict k (DFrame f)) (CPredict k (DFrame f'))
| same_score : forall f f', same_columns N f f' -> same_call N (CScore (DFrame f)) (CScore (DFrame f')).
(** Fits the checks reject (ValueError, TypeError) before anything is fitted. *)
Definition rejected {w} (o : params w) (X : data) (y : w_Y w) (sw : option (w_SW w)) : Prop :=
  check_params o <> Ok tt \/ X = DOther \/ w_target w y = TgOther \/ check_scaling o (w_target w y) <> Ok tt \/ (sw <> None /\ w_target w y = TgContinuous).
(** The rounding solver answers, if at all, with a feasible point of its problem. *)
Definition rounding_ok (w : world) : Prop := forall t p, w_mip w t = Some p -> exists minb maxb, mip_feasible t p minb maxb.
