(** Vocabulary for the binning process: selection criteria and local transform parameters. *)
From Coq Require Import List ZArith Bool Permutation Sorting.
From Verif Require Import Model.Arr Model.Core Model.Process.
Import ListNotations.
Open Scope Z_scope.

(** np.argsort: a permutation of the positions that lists the values in nondecreasing order; ties in any order. *)
Definition argsort_ok (argsort : list Z -> list nat) : Prop :=
  forall l, Permutation (argsort l) (seq 0 (length l)) /\
    StronglySorted Z.le (map (fun i => nth i l 0) (argsort l)).

(** A value meets the bounds of a metric's criteria. *)
Definition meets (c : crit) (v : Z) : Prop :=
  (forall m, c_min c = Some m -> m <= v) /\ (forall m, c_max c = Some m -> v <= m).
(** The criteria ask for the [t] best: "strategy" and "top" are both given. *)
Definition ranked (c : crit) (highest : bool) (t : topn) : Prop := c_strategy c = Some highest /\ c_top c = Some t.
(** [a] ranks at least as well as [b]. *)
Definition at_least_as_good (highest : bool) (a b : Z) : Prop := if highest then b <= a else a <= b.
(** Number of variables with a property. *)
Definition number_of {A} (p : A -> bool) (l : list A) : nat := length (filter p l).
(** The fraction a/b of n, rounded up. *)
Definition at_most_top (t : topn) (n k : nat) : Prop :=
  match t with TopInt m => (k <= m)%nat | TopFrac a b => (k * b < n * a + b)%nat end.

(** The arguments a variable is transformed with: its own entries, else the call's. *)
Definition local_args {A} (params : name -> tparams A) (a : targs A) (n : name) : targs A :=
  mkA (match tp_metric (params n) with Some m => m | None => ta_metric a end)
      (match tp_special (params n) with Some m => m | None => ta_special a end)
      (match tp_missing (params n) with Some m => m | None => ta_missing a end).
Definition exactly_top (t : topn) (n k : nat) : Prop :=
  match t with TopInt m => k = m | TopFrac a b => (n * a <= k * b < n * a + b)%nat end.
Definition top_ok (t : topn) : Prop := match t with TopInt m => (1 <= m)%nat | TopFrac a b => (0 < a < b)%nat end.
(** The variable is in the support. *)
Definition selected (names : list name) (sup : list bool) (n : name) : Prop :=
  exists i, nth_error names i = Some n /\ nth_error sup i = Some true.
(** Value of a metric for a fitted variable. *)
Definition value_of {V} (stat : V -> var_stats) (fitted : dict V) (n : name) (m : nat) (x : Z) : Prop :=
  exists v, dget fitted n = Some v /\ stat v m = x.
(** Every variable that follows a variable with its own entry for a key has its own entry for it too. *)
Definition entries_stay {A} (params : name -> tparams A) (sel : list name) : Prop :=
  forall i j a b, (i < j)%nat -> nth_error sel i = Some a -> nth_error sel j = Some b ->
    (tp_metric (params a) <> None -> tp_metric (params b) <> None) /\
    (tp_special (params a) <> None -> tp_special (params b) <> None) /\
    (tp_missing (params a) <> None -> tp_missing (params b) <> None).
(** All selected variables have an entry for the key, or none has. *)
Definition same_keys {A} (params : name -> tparams A) (sel : list name) : Prop :=
  forall a b, In a sel -> In b sel ->
    (tp_metric (params a) <> None -> tp_metric (params b) <> None) /\
    (tp_special (params a) <> None -> tp_special (params b) <> None) /\
    (tp_missing (params a) <> None -> tp_missing (params b) <> None).
(** The expected output: every variable transformed with its own arguments. *)
Definition local_output {A X Y} (tr : name -> targs A -> X -> Y) (st : Y -> Y) (params : name -> tparams A)
    (sel : list name) (a : targs A) (rows : list (name -> X)) : list (list Y) :=
  map (fun r => map (fun n => st (tr n (local_args params a n) (r n))) sel) rows.
