(** Vocabulary for histories of calls on an SBOptimalBinning object. *)
From Coq Require Import List ZArith Bool Arith QArith Reals Lra.
From Verif Require Import Model.Arr Model.Core Model.CP Model.Multi Model.Metrics Model.Lifecycle Model.Scenario Model.ScenLife Spec.CoreSpec Spec.ScenarioSpec.
Import ListNotations.
Open Scope Z_scope.

(** The answer of a call in a state (object and files). *)
Definition ask (e : lenv) (w : sworld) (c : sop) : res sval := snd (sb_step e w c).
(** The call is a fit or fit_transform whose fit returns normally on the object. *)
Definition fits_data (e : lenv) (w : sworld) (d : sdata) : Prop := ask e w (SFit d) = Ok SVNone.
Definition fit_of_call (c : sop) (d : sdata) : Prop := c = SFit d \/ exists xs m, c = SFitTransform d xs m.
(** Methods documented to need a fitted object. *)
Definition needs_fit (c : sop) : Prop :=
  match c with STransform _ _ | SSplits | SStatus | STable | SScenTable _ | SInfo _ | SToJson (Some _) => True | _ => False end.
(** Methods that show the binning (everything but the scenario tables, whose range depends on the last call of fit, and information). *)
Definition shows_binning (c : sop) : Prop :=
  match c with STransform _ _ | SSplits | SStatus | STable | SToJson _ => True | _ => False end.

(** The object used by [sb_fit] (C65): the same parameters, with the split points found by the prebinning method and the answer of the solver. *)
Definition scen_env (e : lenv) (splits0 : list Z) (solver : sb_problem -> list bool) : sb_env :=
  {| se_sp := l_sp e; se_rnd := l_rnd e; se_prebin := fun _ => splits0; se_solver := solver |}.
(** the solver's solution (when it raises, fit raises as well: any vector will do) *)
Definition solutions (e : lenv) (pr : sb_problem) : list bool :=
  match l_solve e pr with Ok (_, sol) => sol | Err _ => match pr_cols pr with c :: _ => repeat false (length (fst c) - 1) ++ [true] | [] => [] end end.
(** the split points are those of the prebinning method on the pooled clean records (each with the weight of its scenario) *)
Definition prebinned (e : lenv) (user : option (list Z)) (d : sdata) (splits0 : list Z) : Prop :=
  match user with Some _ => True | None => l_prebin e (pooled (l_sp e) (sd_X d)) (pooled_weights (l_sp e) (sd_X d) (sd_w d)) = Ok splits0 end.

(** The oracles behave: sorted split points, a monotone rounding, a list of special codes without NaN, and one Boolean per prebin, the last True. *)
Record lenv_ok (e : lenv) : Prop := {
  lk_prebin : forall X w s, l_prebin e X w = Ok s -> nondecreasing s;
  lk_rnd : forall a b, a <= b -> l_rnd e a <= l_rnd e b;
  lk_sp : match l_sp e with SpDict _ => False | _ => True end;
  lk_nan : ~ In XNaN (flat_codes (l_sp e));
  lk_solve : forall pr n st sol, l_solve e pr = Ok (st, sol) -> (2 <= n)%nat -> pr_cols pr <> [] ->
     (forall c, In c (pr_cols pr) -> length (fst c) = n /\ length (snd c) = n) -> length sol = n /\ last sol false = true }.

(** The smallest and the largest clean value of a scenario: not missing, target not missing, no special code *)
Definition clean_value (sp : special) (s : scen) (v : Z) : Prop :=
  exists y, In (XNum v, y) (combine (fst s) (snd s)) /\ y <> YNaN /\ ~ In (XNum v) (flat_codes sp).
Definition least (P : Z -> Prop) (m : Z) : Prop := P m /\ forall v, P v -> m <= v.
Definition greatest (P : Z -> Prop) (m : Z) : Prop := P m /\ forall v, P v -> v <= m.

(** A call after which the object counts as fitted: a fit that returned normally, or read_json (which sets the flag before opening the file). *)
Definition establishes (e : lenv) (w : sworld) (c : sop) : Prop :=
  (exists d, fit_of_call c d /\ fits_data e w d) \/ exists p, c = SReadJson p.
(** Some call of the history did, in the state in which it was made. *)
Definition established (e : lenv) (w : sworld) (h : list sop) : Prop :=
  exists h1 c h2, h = h1 ++ c :: h2 /\ establishes e (fst (sb_exec e w h1)) c.
(** The same answer, up to the number of refinements that information prints. *)
Definition same_answer (a b : res sval) : Prop :=
  match a, b with Ok (SVInfo s n _), Ok (SVInfo s' n' _) => s = s' /\ n = n' | _, _ => a = b end.
(** The attributes that tell whether the call changed the object: every answer is the same. *)
Definition looks_the_same (e : lenv) (w w' : sworld) (which : sop -> Prop) : Prop := forall c, which c -> ask e w' c = ask e w c.

(** The clean records of a scenario, in order. *)
Definition clean_records (sp : special) (s : scen) : list csample :=
  flat_map (fun r : xval * yval => match r with
    | (XNum v, Y0) => if isin (flat_codes sp) (XNum v) then [] else [{| cx := v; c0 := true; cw := 1 |}]
    | (XNum v, Y1) => if isin (flat_codes sp) (XNum v) then [] else [{| cx := v; c0 := false; cw := 1 |}]
    | _ => [] end) (combine (fst s) (snd s)).
(** the call neither fits the object nor reads a file into it *)
Definition only_asks (c : sop) : Prop := match c with SFit _ | SFitTransform _ _ _ | SReadJson _ => False | _ => True end.
