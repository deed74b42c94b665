(** Counterfactuals as the documentation describes them: a choice of new bins. *)
From Coq Require Import List ZArith Bool Arith Permutation Reals.
From Verif Require Import Model.Arr Model.Core Model.Metrics Model.Scorecard Model.Counterfactual Spec.ScoreSpec.
Import ListNotations.
Open Scope R_scope.

(** For every feature, the row of its binning table it moves to; None: the value of the query is kept. *)
Definition moves := nat -> option nat.
(** Transformed value of a feature after the moves; [metrics]: the metric columns of the tables, [x]: the transformed query. *)
Definition value_after (metrics : list (list R)) (x : list R) (c : moves) (i : nat) : R :=
  match c i with Some j => nth j (nth i metrics []) 0 | None => nth i x 0 end.
(** The rows a feature may move to: bins (and the special and missing rows if [special_missing]) with another value. *)
Definition row_allowed (special_missing : bool) (v : svar) (a : R) (j : nat) : Prop :=
  (j < if special_missing then length (sv_metric v) else n_bins_of v)%nat /\ nth j (sv_metric v) 0 <> a.
Definition n_changed (p : nat) (c : moves) : nat := length (filter (fun i => match c i with Some _ => true | None => false end) (seq 0 p)).
Definition valid_moves (special_missing : bool) (vars : list svar) (x : list R) (max_changes : Z) (non_actionable : list nat) (c : moves) : Prop :=
  (forall i j, c i = Some j -> ~ In i non_actionable /\ exists v a, nth_error vars i = Some v /\ nth_error x i = Some a /\ row_allowed special_missing v a j) /\
  (Z.of_nat (n_changed (length vars) c) <= max_changes)%Z.
(** Linear predictor after the moves. *)
Definition score_after (vars : list svar) (x : list R) (intercept : R) (c : moves) : R :=
  intercept + rsum (map (fun i => nth i (map sv_coef vars) 0 * value_after (map sv_metric vars) x c i) (seq 0 (length vars))).
(** The requested outcome: class, or bounds on the predicted value. *)
Definition outcome_met (minimum maximum : bool) (o : outcome) (s : R) : Prop :=
  match o with
  | OBin true => 1 / 1000000 <= s
  | OBin false => s <= 0
  | OCont y => (minimum = true -> y <= s) /\ (maximum = true -> s <= y)
  | OProb _ => True
  end.
(** Diversity of two counterfactuals. *)
Definition changed (c : moves) (i : nat) : bool := match c i with Some _ => true | None => false end.
Definition differ_in_features (p : nat) (c c' : moves) : Prop := exists i, (i < p)%nat /\ changed c i <> changed c' i.
Definition differ_in_values (p : nat) (c c' : moves) : Prop := forall i j j', (i < p)%nat -> c i = Some j -> c' i = Some j' -> j <> j'.
Definition diverse_moves (features values : bool) (p K : nat) (cs : nat -> moves) : Prop := forall k l, (k < l < K)%nat ->
  (features = true -> differ_in_features p (cs k) (cs l)) /\ (values = true -> differ_in_values p (cs k) (cs l)).

(** The quantities minimised: weighted l1 distance, l1 Mahalanobis distance, distance to the desired outcome; and maximised: the
    number of features changed in only one of two counterfactuals, the number of bins used in only one of two. *)
Definition l1 (wr x : list R) (x' : nat -> R) (p : nat) : R := rsum (map (fun i => nth i wr 0 * Rabs (nth i x 0 - x' i)) (seq 0 p)).
Definition mahalanobis (F : nat -> nat -> R) (mu : list R) (x' : nat -> R) (p : nat) : R :=
  rsum (map (fun i => Rabs (rsum (map (fun j => F j i * (x' j - nth j mu 0)) (seq i (p - i))))) (seq 0 p)).
Definition features_apart (p : nat) (c c' : moves) : nat := length (filter (fun i => xorb (changed c i) (changed c' i)) (seq 0 p)).
Definition values_apart1 (a b : option nat) : nat :=
  match a, b with None, None => 0 | Some j, Some j' => if Nat.eqb j j' then 0 else 2 | _, _ => 1 end.
Definition values_apart (p : nat) (c c' : moves) : R := rsum (map (fun i => INR (values_apart1 (c i) (c' i))) (seq 0 p)).
Definition desired (o : outcome) : R := match o with OProb y | OCont y => y | OBin _ => 0 end.
Definition quantity (D : cfdata) (vars : list svar) (o : outcome) (K : nat) (cs : nat -> moves) (n : oname) : R :=
  let p := length vars in let val k := value_after (map sv_metric vars) (d_x D) (cs k) in
  match n with
  | NProx => rsum (map (fun k => l1 (d_wr D) (d_x D) (val k) p) (seq 0 K))
  | NClose => rsum (map (fun k => mahalanobis (d_F D) (d_mu D) (val k) p) (seq 0 K))
  | NDiff => rsum (map (fun k => Rabs (score_after vars (d_x D) (d_int D) (cs k) - desired o)) (seq 0 K))
  | NDivF => - rsum (map (fun k => rsum (map (fun l => INR (features_apart p (cs k) (cs l))) (seq (S k) (K - S k)))) (seq 0 K))
  | NDivV => - rsum (map (fun k => rsum (map (fun l => values_apart p (cs k) (cs l)) (seq (S k) (K - S k)))) (seq 0 K))
  end.
Definition total_cost (G : cfparams) (D : cfdata) (vars : list svar) (o : outcome) (K : nat) (cs : nat -> moves) : R :=
  rsum (map (fun n => match weight_of_obj G n with Some w => w * quantity D vars o K cs n | None => 0 end) all_names).
(** What display() shows, as moves. *)
Definition moves_shown (D : cfdata) (z : nat -> list bool) : moves :=
  fun i => match shown_feature D z i with Ok (NewBin j) => Some j | _ => None end.
(** K counterfactuals meeting the whole request *)
Definition request_met (special_missing : bool) (G : cfparams) (D : cfdata) (vars : list svar) (o : outcome) (K : nat) (cs : nat -> moves) : Prop :=
  (forall k, (k < K)%nat -> valid_moves special_missing vars (d_x D) (g_maxch G) (g_nonact G) (cs k) /\
     outcome_met (g_min G) (g_max G) o (score_after vars (d_x D) (d_int D) (cs k))) /\
  diverse_moves (g_divf G) (g_divv G) (length vars) K cs.

(** Least value of [f] among the alternatives satisfying [ok]. *)
Definition is_least {A} (ok : A -> Prop) (f : A -> R) (v : R) : Prop := (exists c, ok c /\ f c = v) /\ forall c, ok c -> v <= f c.
(** Objectives by priority: each is optimal among the alternatives that worsen none of the previous optima by more than the
    fraction [tol]; of the last one the optimum is attained. *)
Fixpoint lexicographic {A N} (tol : R) (ok : A -> Prop) (q : N -> A -> R) (names : list N) (c : A) : Prop :=
  match names with
  | [] => ok c
  | [n] => ok c /\ forall c', ok c' -> q n c <= q n c'
  | n :: rest => exists v, is_least ok (q n) v /\ lexicographic tol (fun c' => ok c' /\ q n c' <= v + tol * Rabs v) q rest c
  end.

(** [a] (metric_special or metric_missing) is the number 0, the default. *)
Definition zero_arg (a : marg R) : Prop := exists b, a = Const b 0.
(** The value the scorecard gives to a value of the query does not depend on special rows of the table: neither missing nor special,
    unless these are scored as 0. *)
Definition query_value_agrees (ms mm : marg R) (v : svar) (q : xval) : Prop :=
  (q = XNaN -> zero_arg mm) /\ (In q (flat_codes (sv_sp v)) -> q <> XNaN -> zero_arg ms).
(** A sample for which the moves were carried out: it lies in the shown bins and keeps the other values of the query. *)
Definition realises (vars : list svar) (q xs : list xval) (c : moves) : Prop :=
  length xs = length vars /\ length q = length vars /\
  forall i v a b, nth_error vars i = Some v -> nth_error q i = Some a -> nth_error xs i = Some b ->
    match c i with Some j => table_row v b j | None => b = a end.
(** Counterfactuals shown for a solution. *)
Definition found (D : cfdata) (S : cfsol) : nat -> moves := fun k => moves_shown D (v_z (s_V S k)).
(** Segment [r] of the piecewise linear logistic function. *)
Definition segment (pw : list ((R * R) * (R * R))) (r : nat) := nth r pw ((0, 0), (0, 0)).
(** The objectives and soft constraints of the request as the dict given by the user. *)
Definition weights_dict (G : cfparams) (items : list (oname * R)) : Prop :=
  NoDup (map fst items) /\ forall n w, weight_of_obj G n = Some w <-> In (n, w) items.
(** Every entry of the dict once, by descending weight, equal weights in the order of the dict. *)
Definition by_priority (items : list (oname * R)) (names : list oname) : Prop :=
  Permutation names (map fst items) /\
  forall a n b m c w v, names = a ++ n :: b ++ m :: c -> In (n, w) items -> In (m, v) items ->
    v <= w /\ (v = w -> exists a' b' c', items = a' ++ (n, w) :: b' ++ (m, v) :: c').
(** max_changes as given by the user; by default half of the features *)
Definition within_max_changes (p : nat) (m : option Z) (changed : nat) : Prop :=
  match m with Some n => (Z.of_nat changed <= n)%Z | None => (2 * changed <= p)%nat end.
