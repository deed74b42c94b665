(** Vocabulary for C78. *)
From Coq Require Import List ZArith Bool Arith Reals.
From Verif Require Import Model.Arr Model.Core Model.Scorecard Model.Process Model.Counterfactual Model.CounterLife Spec.ScoreSpec Spec.CounterfactualSpec.
Import ListNotations.
Open Scope R_scope.

(** the calls of a history with their results *)
Definition trace (u : outside) (w : cworld) (ops : list (cop u)) : list (cop u * cres unit) := combine ops (snd (crun u w ops)).
Definition fit_ok {u} (e : cop u * cres unit) : Prop := exists X, e = (Fit X, COk tt).
Definition generate_ok {u} (e : cop u * cres unit) : Prop := exists r a, e = (Generate r a, COk tt).
(** a successful generate, and no successful fit since *)
Definition generated_since_fit {u} (tr : list (cop u * cres unit)) : Prop :=
  exists pre e post, tr = pre ++ e :: post /\ generate_ok e /\ forall e', In e' post -> ~ fit_ok e'.
(** the object was fitted successfully, and the scorecard has not been refitted since *)
Definition fitted_to_card {u} (w : cworld) (ops : list (cop u)) : Prop :=
  exists pre X post, ops = pre ++ Fit X :: post /\ snd (cstep u (fst (crun u w pre)) (Fit X)) = COk tt /\ forall c, ~ In (RefitScorecard c) post.

(** the requests the documentation allows, given the target of the scorecard and its variables *)
Record acceptable (binary : bool) (names : list name) (r : request) : Prop := {
  ac_binary : binary = true -> (r_type r = TBinary /\ (r_y r = 0 \/ r_y r = 1)) \/ (r_type r = TProbability /\ 0 <= r_y r <= 1);
  ac_continuous : binary = false -> r_type r = TContinuous;
  ac_number : (0 < r_ncf r)%Z;
  ac_changes : forall m, r_maxch r = Some m -> (0 < m)%Z;
  ac_actionable : forall l v, r_act r = Some l -> In v l -> In v names;
  ac_method : r_method r <> None;
  ac_objectives : forall l, r_obj r = Some l -> l <> [] /\ forall n w, In (n, w) l -> n <> OInvalid /\ 0 < w;
  ac_hard : forall l, r_hard r = Some l -> NoDup l /\ forall c, In c l -> c = CDivF \/ c = CDivV \/ ((c = CMin \/ c = CMax) /\ r_type r <> TBinary);
  ac_soft : forall l c w, r_soft r = Some l -> In (c, w) l -> 0 < w /\ (c = CDivF \/ c = CDivV \/ (c = CDiff /\ r_type r <> TBinary));
  ac_outcome : r_type r <> TBinary -> (exists l, r_hard r = Some l /\ (In CMin l \/ In CMax l)) \/ exists l w, r_soft r = Some l /\ In (CDiff, w) l;
  ac_tol : 0 <= r_tol r <= 1;
  ac_time : 0 < r_time r }.

(** the solver is trusted: z are the values in an assignment satisfying the constraints *)
Definition sound_answer (G : cfparams) (D : cfdata) (o : outcome) (K : nat) (z : nat -> nat -> list bool) : Prop :=
  exists S, feasible G D o K S /\ forall k i, z k i = v_z (s_V S k) i.
(** what is shown of the value [x] of column [v]: the bin the feature moves to, the value of the query, or a dash *)
Definition cell_shown (names : list name) (m : moves) (only : bool) (v : name) (x : xval) (y : cell) : Prop :=
  (forall i, nth_error names i = Some v -> y = match m i with Some j => BinOf v j | None => if only then Dash else Orig x end) /\
  (~ In v names -> y = if only then Dash else Orig x).
(** the frame shown for a query with one row *)
Definition frame_of (names : list name) (cols : list name) (row : list xval) (m : moves) (only : bool) (f : frame_shown) : Prop :=
  f_cols f = cols /\ exists row', f_rows f = [row'] /\ length row' = length row /\
    forall n v x, nth_error cols n = Some v -> nth_error row n = Some x -> exists y, nth_error row' n = Some y /\ cell_shown names m only v x y.
(** the outcome shown for the linear predictor [s] *)
Definition outcome_shown (t : otype) (s : R) : R := match t with TContinuous => s | _ => logistic s end.
(** the segments follow the logistic function within eps *)
Definition segments_within (pw : list ((R * R) * (R * R))) (eps : R) : Prop :=
  forall r t, (r < length pw)%nat -> fst (fst (segment pw r)) <= t <= snd (fst (segment pw r)) ->
    Rabs (snd (snd (segment pw r)) * t + fst (snd (segment pw r)) - logistic t) <= eps.
(** the values of the row under the columns of the variables *)
Definition values_in_row (cols : list name) (row : list xval) (names : list name) (q : list xval) : Prop :=
  length q = length names /\ forall i v, nth_error names i = Some v -> exists n, nth_error cols n = Some v /\ nth_error row n = nth_error q i.
(** hard constraint [c] requested and in force for this number of counterfactuals *)
Definition requests (r : request) (c : consname) : Prop := exists l, r_hard r = Some l /\ In c l.
(** the moves meet the request: only actionable features, at most max_changes, only to allowed rows, and the outcome *)
Definition moves_meet (special_missing : bool) (names : list name) (vars : list svar) (x : list R) (r : request) (s : R) (m : moves) : Prop :=
  (forall i j, m i = Some j -> exists v a, nth_error vars i = Some v /\ nth_error x i = Some a /\ row_allowed special_missing v a j /\
     forall l nm, r_act r = Some l -> nth_error names i = Some nm -> In nm l) /\
  within_max_changes (length names) (r_maxch r) (n_changed (length names) m) /\
  match r_type r with
  | TBinary => (r_y r = 1 -> 1 / 1000000 <= s) /\ (r_y r = 0 -> s <= 0)
  | TContinuous => (requests r CMin -> r_y r <= s) /\ (requests r CMax -> s <= r_y r)
  | _ => True
  end.
(** the number of rows of the table of [v] a feature with value [a] may move to: those with another value *)
Definition n_choices (special_missing : bool) (v : svar) (a : R) : nat :=
  length (filter (fun m => if Req_EM_T m a then false else true) (if special_missing then sv_metric v else firstn (n_bins_of v) (sv_metric v))).
(** the query has one row, with a value for every variable *)
Definition one_row (names : list name) (q : query) (row : list xval) : Prop :=
  q_rows q = [row] /\ length row = length (q_cols q) /\ forall v, In v names -> In v (q_cols q).
(** the object of a scorecard [c] whose variables have distinct names and well-formed tables *)
Definition card_ok (c : card) : Prop := Forall svar_ok (k_vars c) /\ NoDup (k_names c) /\ length (k_names c) = length (k_vars c).
(** two features have different numbers of rows to move to *)
Definition different_choices (special_missing : bool) (vars : list svar) (x : list R) : Prop :=
  exists i j v v' a a', nth_error vars i = Some v /\ nth_error x i = Some a /\ nth_error vars j = Some v' /\ nth_error x j = Some a' /\
    n_choices special_missing v a <> n_choices special_missing v' a'.
